{
 "claims": [
  {
   "property": "C01",
   "status": "proved",
   "theorems": [
    "C01_base64_roundtrip"
   ],
   "note": ""
  },
  {
   "property": "C02",
   "status": "proved",
   "theorems": [
    "C02_base64_is_rfc4648",
    "C02_base64_length",
    "C02_base64_shape",
    "C02_base64_injective"
   ],
   "note": ""
  },
  {
   "property": "C03",
   "status": "partial",
   "theorems": [
    "C03_base64_strict_refuted",
    "C03_base64_strict_unpadded_partial",
    "C03_base64_accepts_partial",
    "C03_base64_decode_safe"
   ],
   "note": "REFUTED as stated: everything after the first padded block is ignored (\"QQ==QQ==\" decodes to \"A\"). Proved: exact acceptance for input without '=', the exact constraints on accepted padded input, and that decoding never reads outside its argument."
  },
  {
   "property": "C04",
   "status": "proved",
   "theorems": [
    "C04_uri_roundtrip",
    "C04_uri_encode_is_form",
    "C04_uri_decode_any_form",
    "C04_uri_encode_canonical",
    "C04_uri_encode_injective",
    "C04_uri_decode_total"
   ],
   "note": ""
  },
  {
   "property": "C05",
   "status": "proved",
   "theorems": [
    "C05_encode_is_rfc3629",
    "C05_utf8_char_roundtrip",
    "C05_decode_end",
    "C05_decode_any"
   ],
   "note": ""
  },
  {
   "property": "C06",
   "status": "proved",
   "theorems": [
    "C06_check_utf8_exact"
   ],
   "note": ""
  },
  {
   "property": "C07",
   "status": "proved",
   "theorems": [
    "C07_string_ustring_roundtrip",
    "C07_ustring_string_roundtrip",
    "C07_string_to_ustring_total",
    "C07_string_to_ustring_step"
   ],
   "note": ""
  },
  {
   "property": "C08",
   "status": "proved",
   "theorems": [
    "C08_sanitize_clean",
    "C08_sanitize_keeps_clean",
    "C08_sanitize_idempotent",
    "C08_sanitize_prefix"
   ],
   "note": ""
  },
  {
   "property": "C09",
   "status": "proved",
   "theorems": [
    "C09_codes_roundtrip",
    "C09_code_length"
   ],
   "note": ""
  },
  {
   "property": "C10",
   "status": "partial",
   "theorems": [
    "C10_bytes_mixed_refuted",
    "C10_bytes_on_boundary_partial"
   ],
   "note": "REFUTED as stated: decoder::byte does not skip to the byte boundary as encoder::byte does, so a raw byte written after an unaligned bit code is read from the wrong place. Proved for raw bytes written on byte boundaries."
  },
  {
   "property": "C11",
   "status": "proved",
   "theorems": [
    "C11_archive_roundtrip",
    "C11_iostream_roundtrip"
   ],
   "note": ""
  },
  {
   "property": "C12",
   "status": "partial",
   "theorems": [
    "C12_truncation_detected_partial",
    "C12_truncated_set_refuted"
   ],
   "note": "Proved for every type except std::set/unordered_set of a bare arithmetic type; REFUTED there: the reader inserts an uninitialised variable after the short read (set.h:52-54)."
  },
  {
   "property": "C13",
   "status": "partial",
   "theorems": [
    "C13_iostream_diverges_refuted",
    "C13_iostream_terminates_partial"
   ],
   "note": "REFUTED: on an archive that ends before the terminator the loop of iostream.h:104-114 never ends. Proved to terminate on complete encodings."
  },
  {
   "property": "C14",
   "status": "proved",
   "theorems": [
    "C14_md5_rfc1321",
    "C14_md5_text",
    "C14_md5_order"
   ],
   "note": ""
  },
  {
   "property": "C15",
   "status": "partial",
   "theorems": [
    "C15_floats_partial",
    "C15_short_floats_partial",
    "C15_floats_rfc8259_partial",
    "C15_compact_round_trip_partial",
    "C15_pretty_round_trip_partial",
    "C15_nul_refuted",
    "C15_equal_partial",
    "C15_prints_rfc8259_partial"
   ],
   "note": "Round trip proved for compact and pretty printing, escaped or not, for all values whose strings hold no U+0000, whose floating numbers are zero or normal, and texts below 2^30 bytes (int buffer size): values without floating numbers come back the same, floating numbers come back rounded to 12 digits (C15_floats_partial), and the document is equal by operator== if 12 digits are enough (C15_short_floats_partial). U+0000 is lost (C15_nul_refuted, C16); subnormal numbers are rejected, see C94. An object is an association list in iteration order; sharing through shared_ptr is in C104."
  },
  {
   "property": "C16",
   "status": "partial",
   "theorems": [
    "C16_nul_refuted",
    "C16_string_round_trip_partial",
    "C16_printed_string_partial"
   ],
   "note": "Refuted: print stops at the first NUL byte. Every other well-formed string round-trips."
  },
  {
   "property": "C17",
   "status": "proved",
   "theorems": [
    "C17_parsed_strings_well_formed"
   ],
   "note": "Proved for all byte streams. What the UTF-8 reader answers for a malformed character depends on istreambuf_iterator comparison in the library; the theorem holds for any function into {0, U+FFFD}."
  },
  {
   "property": "C18",
   "status": "partial",
   "theorems": [
    "C18_last_digit_refuted",
    "C18_malformed_accepted_refuted",
    "C18_number_value_partial",
    "C18_integer_range_partial",
    "C18_float_range_partial"
   ],
   "note": "Refuted: 1e5 at the end of the stream reads as 1.0; -, 1. and 007 are accepted. Every other RFC number token is read at its full correctly rounded value in every context; out of range numbers are rejected. strtod is modelled as correctly rounding (glibc)."
  },
  {
   "property": "C19",
   "status": "partial",
   "theorems": [
    "C19_deep_merge_refuted",
    "C19_merge_keys_partial",
    "C19_merge_with_partial",
    "C19_non_objects_partial",
    "C19_associative_partial",
    "C19_idempotent_partial"
   ],
   "note": "Refuted: merge is shallow, b's nested object replaces a's. Exact keys, right bias, associativity, idempotence and rejection of non-objects proved. Values are trees, so that inputs are untouched holds by construction; the result shares its children with the inputs in the code."
  },
  {
   "property": "C20",
   "status": "partial",
   "theorems": [
    "C20_nested_optional_refuted",
    "C20_silent_conversion_refuted",
    "C20_round_trip_partial",
    "C20_kinds_partial"
   ],
   "note": "Refuted for optionals of nullable types and (from_json<int>) silent truncation. Round trip through any member order proved for all other nested types incl. classes with named members; from_json succeeds exactly on the right kinds (a double also reads an integer). float and unsigned: see C115."
  },
  {
   "property": "C21",
   "status": "proved",
   "theorems": [
    "C21_round_trip",
    "C21_small_rows"
   ],
   "note": "Round trip for every table of NUL-free fields, every choice of quoting and of line breaks, under the guard that no field ends at a position 1024*2^k of its row (C21_small_rows: always so for rows of up to 1024 bytes)."
  },
  {
   "property": "C22",
   "status": "partial",
   "theorems": [
    "C22_reads_past_end_refuted",
    "C22_writes_past_buffer_refuted",
    "C22_safe_on_csv_partial",
    "C22_safe_without_quotes_partial",
    "C22_terminates"
   ],
   "note": "Refuted: unterminated quotes, a comma/quote/CR at the end of the input are read past, and a field ending exactly at the end of the buffer writes its NUL outside. Proved safe for CSV files within the guard and for quote-free text of short lines ending in LF; termination for all inputs."
  },
  {
   "property": "C23",
   "status": "proved",
   "theorems": [
    "C23_html_encode_denotes",
    "C23_html_encode_safe",
    "C23_html_encode_injective",
    "C23_render_reads_back",
    "C23_pretty_reads_back"
   ],
   "note": ""
  },
  {
   "property": "C24",
   "status": "partial",
   "theorems": [
    "C24_parse_composed_partial",
    "C24_print_parse_partial",
    "C24_parse_refuted",
    "C24_print_refuted",
    "C24_print_empty_path_refuted"
   ],
   "note": "Parts recovered for every composed reference (absolute or relative) with no percent-encoding in the authority, host names not beginning with an IPv4 address, four-digit IPv6 groups with :: for one or for leading groups; print/parse with a scheme and a path starting with a slash. Refuted outside (encoded userinfo/host, names like 1.2.3.4.example, [::1], IPvFuture, mailto:joe)."
  },
  {
   "property": "C25",
   "status": "partial",
   "theorems": [
    "C25_out_of_bounds_refuted",
    "C25_in_bounds_partial"
   ],
   "note": "Refuted: parse_userinfo skips three extra bytes after an encoded byte (http://%41). Proved in bounds and total for all strings with at least three bytes behind each encoded byte."
  },
  {
   "property": "C26",
   "status": "proved",
   "theorems": [
    "C26_header_map"
   ],
   "note": "C26_header_map: for every sequence of set, erase and non-const get. Reading a missing name by the non-const [] or get inserts it with an empty value; the specification says so."
  },
  {
   "property": "C27",
   "status": "partial",
   "theorems": [
    "C27_send",
    "C27_read_partial",
    "C27_read_refuted",
    "C27_long_line_refuted"
   ],
   "note": "C27_send and C27_read_partial: round trip for every kernel segmentation and following bytes. Refuted for values with a leading blank (stripped) and for lines longer than 4094 bytes (cut at line_limit, the rest becomes a new field)."
  },
  {
   "property": "C28",
   "status": "partial",
   "theorems": [
    "C28_chunked_partial",
    "C28_chunked_refuted",
    "C28_readers_end",
    "C28_negative_size_refuted"
   ],
   "note": "C28_chunked_partial: every chunking, with extensions and trailer, for bodies without the byte 255. C28_chunked_refuted: underflow returns char, so 255 is taken for EOF. C28_negative_size_refuted: chunk size -1 leads to memcpy with a negative size. C28_readers_end: otherwise no undefined behaviour, for any peer."
  },
  {
   "property": "C29",
   "status": "partial",
   "theorems": [
    "C29_content_length_partial",
    "C29_zero_length_refuted"
   ],
   "note": "C29_content_length_partial: exactly n bytes for n > 0. C29_zero_length_refuted: for n = 0 the stream goes on delivering what follows."
  },
  {
   "property": "C30",
   "status": "proved",
   "theorems": [
    "C30_sent",
    "C30_flushed",
    "C30_short_write",
    "C30_received",
    "C30_received_all",
    "C30_stays_connected"
   ],
   "note": "C30_sent, C30_flushed, C30_short_write: the bytes given to the kernel are the bytes written, in order, for every sequence of calls and every behaviour of ::send. C30_received, C30_received_all, C30_stays_connected: read, getc and getline return the received bytes in order and once for every segmentation; less than asked for only at the end of the connection."
  },
  {
   "property": "C31",
   "status": "partial",
   "theorems": [
    "C31_reconnect_refuted",
    "C31_reconnect_partial"
   ],
   "note": "C31_reconnect_refuted: connect and close keep rdbuf and wrbuf, so a byte written before reaches the new peer and an old received byte is delivered. C31_reconnect_partial says exactly what crosses over: the contents of the two buffers; with both empty the socket starts clean."
  },
  {
   "property": "C32",
   "status": "proved",
   "theorems": [
    "C32_form_pairs",
    "C32_form_encoded",
    "C32_form_total"
   ],
   "note": "Proved for all byte strings (NUL included) and every valid percent-encoding, not only uri_encode's; parsing is total on every text. Maps are association lists: order of iteration not modelled."
  },
  {
   "property": "C33",
   "status": "proved",
   "theorems": [
    "C33_fenwick_sums"
   ],
   "note": ""
  },
  {
   "property": "C34",
   "status": "proved",
   "theorems": [
    "C34_intern_refines",
    "C34_intern_reload"
   ],
   "note": ""
  },
  {
   "property": "C35",
   "status": "proved",
   "theorems": [
    "C35_lru_refines"
   ],
   "note": ""
  },
  {
   "property": "C36",
   "status": "proved",
   "theorems": [
    "C36_optional_value_semantics",
    "C36_optional_order"
   ],
   "note": ""
  },
  {
   "property": "C37",
   "status": "partial",
   "theorems": [
    "C37_search_partial",
    "C37_distinct_partial",
    "C37_long_refuted",
    "C37_nul_matters"
   ],
   "note": "C37_search_partial and C37_distinct_partial cover construct() (sorting, the double array, failure links, output marks) and search() for every dictionary of NUL-free words and every text of less than 2^31 bytes, including the absence of out-of-range accesses and termination. C37_long_refuted: in longer texts the places come out negative, since they are int. Not modelled: int overflow of node indices and word numbers, i.e. dictionaries of about 2^31 nodes or words. C37_nul_matters shows why NUL-free is needed."
  },
  {
   "property": "C38",
   "status": "partial",
   "theorems": [
    "C38_kmp_first_occurrence_partial",
    "C38_seen_partial",
    "C38_long_refuted",
    "C38_negative_refuted"
   ],
   "note": "C38_kmp_first_occurrence_partial: queries and texts of less than 2^31 elements, offsets from 0 on. C38_seen_partial says which part of a text of any size is searched; C38_long_refuted: of a text of 2^31 to 2^32-1 elements nothing is, so an occurrence at its front is missed; C38_negative_refuted: a negative offset reads in front of the text. Not covered: queries of 2^31 elements and more."
  },
  {
   "property": "C39",
   "status": "proved",
   "theorems": [
    "C39_edit_distance",
    "C39_lcs",
    "C39_lis"
   ],
   "note": ""
  },
  {
   "property": "C40",
   "status": "proved",
   "theorems": [
    "C40_join",
    "C40_split_then_join",
    "C40_join_then_split",
    "C40_split_string",
    "C40_pieces_unique",
    "C40_replace",
    "C40_replace_empty",
    "C40_strip",
    "C40_lstrip",
    "C40_rstrip",
    "C40_starts_with",
    "C40_ends_with"
   ],
   "note": ""
  },
  {
   "property": "C41",
   "status": "partial",
   "theorems": [
    "C41_rows_roundtrip_partial",
    "C41_transpose_partial",
    "C41_transpose_twice_partial",
    "C41_last_column_refuted",
    "C41_large_refuted",
    "C41_no_statistics"
   ],
   "note": "Proved of rows whose columns are below INT_MAX and whose matrices take less than 2^31 bytes (6 bytes per entry at most): write, open, get_row (vector and map), row_num, get_row_size; transposing for every amount of free memory exchanges rows and columns; twice gives the original without trailing empty rows. The code overflows an int on column INT_MAX and on matrices of 2^31 bytes and more (refuted theorems)."
  },
  {
   "property": "C42",
   "status": "proved",
   "theorems": [
    "C42_last_value",
    "C42_last_value_unique",
    "C42_malformed_line",
    "C42_lines_total",
    "C42_texts_total",
    "C42_nul",
    "C42_missing_file",
    "C42_read_failure"
   ],
   "note": "Every file without NUL: lines either say one thing or are malformed (proved exhaustive and exclusive); a NUL cuts its line. When reading fails in the middle, the rest and the unfinished line are lost without an error (C42_read_failure)."
  },
  {
   "property": "C43",
   "status": "proved",
   "theorems": [
    "C43_ratio_exact",
    "C43_ratio_make",
    "C43_ratio_equal",
    "C43_ratio_of_int",
    "C43_ratio_zero",
    "C43_ratio_print",
    "C43_ratio_print_inj"
   ],
   "note": "Any type T, given by the set of its values: the exact result in lowest terms, or an overflow that needs a number larger than twice the square of the largest operand. Only == exists as a comparison. operator<<: the text of integral types other than char, whatever the value."
  },
  {
   "property": "C44",
   "status": "partial",
   "theorems": [
    "C44_fourier_partial",
    "C44_lengths",
    "C44_huge_refuted",
    "C44_inverse_partial",
    "C44_inverse_refuted",
    "C44_complex"
   ],
   "note": "fft computes the Fourier sums over every commutative ring with a principal root for all power-of-two lengths up to 2^32 and refuses other lengths; ifft after fft multiplies by the length. Refuted: ifft does not divide by the length, so ifft(fft(x)) = n*x; above 2^32 elements the int counter overflows and fft never returns. Floating-point rounding is outside the property."
  },
  {
   "property": "C45",
   "status": "proved",
   "theorems": [
    "C45_rounding",
    "C45_next_int_below",
    "C45_next_int_between",
    "C45_next_int_scales",
    "C45_next_int_reaches",
    "C45_next_double_below",
    "C45_with_replacement",
    "C45_without_replacement",
    "C45_without_replacement_any_generator"
   ],
   "note": "For every generator; doubles as exact integers over 2^53, the one rounded product rounded to nearest even; every number below the argument can come (C45_next_int_reaches). next_gaussian, next_double(a) and next_double(a,b) as doubles: C112."
  },
  {
   "property": "C46",
   "status": "proved",
   "theorems": [
    "C46_recurrence",
    "C46_sequence_exists",
    "C46_sequence_unique",
    "C46_words"
   ],
   "note": "For every seed and every number of calls, whatever the uninitialised array held."
  },
  {
   "property": "C47",
   "status": "proved",
   "theorems": [
    "C47_reverse",
    "C47_memory",
    "C47_inverse",
    "C47_array"
   ],
   "note": "All types of 1 or more bytes (specialised: char, short, int and unsigned; generic: any size) on both kinds of machine. Signed left shifts wrap as gcc defines."
  },
  {
   "property": "C48",
   "status": "partial",
   "theorems": [
    "C48_plus_partial",
    "C48_minus_partial",
    "C48_undo_partial",
    "C48_order_partial",
    "C48_order_refuted",
    "C48_overflow_refuted"
   ],
   "note": "False without normalisation (witnesses): the constructor accepts microseconds outside 0..999999, < is then not the order of instants, and microseconds can overflow. Partial: + and - exact modulo the wrap of seconds whenever the microseconds do not overflow; undo and order for normalised times. operator double and the other comparisons: C113."
  },
  {
   "property": "C49",
   "status": "proved",
   "theorems": [
    "C49_mutual_exclusion",
    "C49_unlock_result",
    "C49_released",
    "C49_no_undefined"
   ],
   "note": "Proved for every schedule of any number of threads, one memory access or pthread call per step (sequentially consistent memory). For a plain mutex the callers must unlock only what they locked (C49_discipline_needed shows why)."
  },
  {
   "property": "C50",
   "status": "proved",
   "theorems": [
    "C50_wait_result",
    "C50_asleep_released",
    "C50_wait_returns_holding"
   ],
   "note": "Proved for both kinds of mutex, any recursion depth, any interleaving."
  },
  {
   "property": "C51",
   "status": "proved",
   "theorems": [
    "C51_pcbuf_linearizable",
    "C51_pcbuf_no_deadlock",
    "C51_pcbuf_no_lost_wakeup"
   ],
   "note": "Lock, unlock and wait are atomic steps of the monitor machine (justified by C49/C50); timeouts are nondeterministic; sequentially consistent memory."
  },
  {
   "property": "C52",
   "status": "proved",
   "theorems": [
    "C52_mvar_linearizable",
    "C52_mvar_no_deadlock",
    "C52_mvar_no_lost_wakeup"
   ],
   "note": "Same monitor machine as C51; swap is modelled with its nested lock, take and put."
  },
  {
   "property": "C53",
   "status": "proved",
   "theorems": [
    "C53_chan_delivery",
    "C53_same_order"
   ],
   "note": "Proved for every schedule, with dup, unget and destruction; includes absence of lost wakeups and deadlocks. size() and empty(): C114."
  },
  {
   "property": "C54",
   "status": "partial",
   "theorems": [
    "C54_qsem_overcommit_refuted",
    "C54_qsem_units_partial",
    "C54_qsem_linearizable_as_coded_partial",
    "C54_qsem_no_deadlock",
    "C54_qsem_no_lost_wakeup"
   ],
   "note": "REFUTED for q<>1: wait(q) waits for q units but takes one (qsem.h:59), so two threads can each be granted 2 units of a semaphore of 3. Proved: linearizable as a semaphore when every wait asks for one unit; no deadlock and no lost wake-up for all q; as-coded behaviour linearizable for all q. int overflow of the quantity not modelled."
  },
  {
   "property": "C55",
   "status": "partial",
   "theorems": [
    "C55_lock_result_refuted",
    "C55_exclusion_refuted",
    "C55_scope_release_refuted",
    "C55_lock_result_partial",
    "C55_scoped_partial"
   ],
   "note": "REFUTED: read_lock(sec) with sec<1e-9 returns the pthread code as a bool, so its result is inverted (rwmutex.cpp:99); a scoped_rlock with timeout 0 leaks the lock or unlocks what it does not hold. Proved for every other call."
  },
  {
   "property": "C56",
   "status": "partial",
   "theorems": [
    "C56_stopped_means_left",
    "C56_not_stopped_means_some",
    "C56_events_count",
    "C56_can_stop",
    "C56_single_waiter_released_partial",
    "C56_second_waiter_sleeps_refuted",
    "C56_no_worker_never_stops_refuted",
    "C56_stop_throws_refuted"
   ],
   "note": "First half (is_stopped()/wait_until_stopped() only after every worker has left) proved for every schedule, with any number of workers, stops, restarts and waiters, and the converse while every start makes a thread; deadlock freedom as reachability of STOPPED. Second half: released if one thread waits; refuted for two waiters (notify_one) and for a server without workers. stop() may also end by an exception of one of its calls (an rpc_error when the reply is cut): then the other workers are not told, and a second stop() does nothing (C56_stop_throws_refuted)."
  },
  {
   "property": "C57",
   "status": "partial",
   "theorems": [
    "C57_calls_partial",
    "C57_answers_unique",
    "C57_name_truncated_refuted",
    "C57_rpc_error_unanswered_refuted",
    "C57_exception_kills_refuted",
    "C57_reserved_names_refuted",
    "C57_workers_exhausted_refuted",
    "C57_unversioned_call_refuted"
   ],
   "note": "Proved for all services, arguments, results, client sets up to the number of workers and call sequences (calls atomic). Refuted parts have their own theorems: names with white space are truncated in method_not_found, an rpc_error inside the function is never answered, any other exception ends the server, reserved names cannot be called, idle clients hold workers, and a truncated request to a nullary function is executed without its version."
  },
  {
   "property": "C58",
   "status": "partial",
   "theorems": [
    "C58_write_no_loss",
    "C58_write_complete",
    "C58_msgpack_codec",
    "C58_read_in_order",
    "C58_join_sound",
    "C58_join_finds",
    "C58_join_range",
    "C58_joins_in_order_partial",
    "C58_ids_distinct",
    "C58_reply_dropped_refuted"
   ],
   "note": "Writes: proved for every sequence of system call outcomes. Replies: join is proved to return the reply with its id behind any other messages, for every cutting of the stream, and replies joined in order of arrival all arrive; that no reply is dropped for another caller is false (C58_reply_dropped_refuted): join throws away every other reply. msgpack-c is described by its format (C58_msgpack_codec), theorems hold for any codec."
  },
  {
   "property": "C59",
   "status": "partial",
   "theorems": [
    "C59_bounded",
    "C59_answers",
    "C59_concurrent_partial",
    "C59_assertion_refuted",
    "C59_leak_refuted",
    "C59_no_room_refuted",
    "C59_expiry_partial",
    "C59_expiry_refuted",
    "C59_sequential",
    "C59_hit",
    "C59_miss"
   ],
   "note": "Bounded, answers only from the resolver, and no crash without the assertion, for every schedule; exact bookkeeping, hits and LRU eviction for calls that do not overlap. Refuted: with expire_second > 0 nothing ever expires (the access time is refreshed before it is tested); two threads missing the same key make the assertion fail and leak access stamps; max_size <= 0 is undefined behaviour."
  },
  {
   "property": "C60",
   "status": "partial",
   "theorems": [
    "C60_round_trip",
    "C60_c_strings",
    "C60_integers",
    "C60_other_types",
    "C60_not_a_string_is_empty",
    "C60_execute_partial",
    "C60_execute_ten_refuted",
    "C60_fetch_partial",
    "C60_statement_round_trip_partial",
    "C60_fetch_many_refuted",
    "C60_fetch_behind_the_end_refuted"
   ],
   "note": "Value round trip, integer ranges and mismatching types proved for all values; arity holds for execute up to 9 arguments and fetch_row up to 7 targets. Refuted beyond: execute with 10 arguments writes behind a vector of 9; fetch_row with 8, 9, 10 targets wants one column less and reads behind the row."
  },
  {
   "property": "C61",
   "status": "partial",
   "theorems": [
    "C61_round_trip",
    "C61_text_injective",
    "C61_equality",
    "C61_order",
    "C61_malformed_gives_none_partial",
    "C61_range_partial",
    "C61_malformed_refuted",
    "C61_any_number_partial"
   ],
   "note": "Round trip for all 2^32 addresses within the 16-byte buffer, equality and order; 'malformed gives none' is false of the code (trailing text, blanks, signs, numbers that wrap into range): the exact set of accepted texts is proved instead."
  },
  {
   "property": "C62",
   "status": "proved",
   "theorems": [
    "C62_any_is_a_value",
    "C62_undefined_only_by_misuse",
    "C62_cast",
    "C62_independent",
    "C62_no_leak"
   ],
   "note": "Heap model of any objects and holders refines plain values for every program, with throwing allocations; no use after delete, no double delete, no leak. Values copy to equal values by assumption."
  },
  {
   "property": "C63",
   "status": "partial",
   "theorems": [
    "C63_round_trip_partial",
    "C63_blank_character_refuted",
    "C63_signed_range",
    "C63_bool_range",
    "C63_unsigned_range_partial",
    "C63_unsigned_minus_refuted",
    "C63_between_types",
    "C63_narrowing_throws"
   ],
   "note": "Round trip proved for every integral type of any width except that a blank char throws (refuted); out-of-range text throws for signed types and bool; unsigned types accept a minus sign and wrap (refuted), everything else proved."
  },
  {
   "property": "C64",
   "status": "partial",
   "theorems": [
    "C64_hankaku_total",
    "C64_voiced_mark",
    "C64_semivoiced_mark_refuted",
    "C64_semivoiced_mark_partial",
    "C64_letters_partial",
    "C64_parenthesis_refuted",
    "C64_hyphen",
    "C64_others",
    "C64_first",
    "C64_latin_roundtrip",
    "C64_latin_roundtrip_back"
   ],
   "note": "The semi-voiced mark is REFUTED: take_handakuten_tbl is a copy of the voiced table for KI..TO, so e.g. half-width KI + semi-voiced mark becomes KU (C64_semivoiced_mark_refuted); and U+FF60 becomes U+0000 (C64_parenthesis_refuted). Everything else is proved: every other half-width character, hyphens, all other characters, and the semi-voiced mark for all characters outside U+30AD..U+30C8."
  },
  {
   "property": "C65",
   "status": "partial",
   "theorems": [
    "C65_attach_buffer_refuted"
   ],
   "note": "REFUTED: the decoder fetches eight bytes at a time, so attach(buf) on a buffer without eight bytes of slack reads outside it."
  },
  {
   "property": "C66",
   "status": "partial",
   "theorems": [
    "C66_intern_hostile_archive_refuted"
   ],
   "note": "REFUTED: ids read from the archive index the id-to-key vector without a check and are not required to be distinct."
  },
  {
   "property": "C67",
   "status": "partial",
   "theorems": [
    "C67_lis_wide_refuted"
   ],
   "note": "REFUTED: an element above INT_MAX makes lower_bound return end() and the store goes past the table."
  },
  {
   "property": "C68",
   "status": "partial",
   "theorems": [
    "C68_reads_rfc8259_partial",
    "C68_last_digit_refuted"
   ],
   "note": "Missing: a number ending in a single exponent digit as the last character of the stream (false: C68_last_digit_refuted); texts of 2^30 bytes and more."
  },
  {
   "property": "C69",
   "status": "proved",
   "theorems": [
    "C69_parser_total",
    "C69_parsed_value_proper"
   ],
   "note": "Inputs below 2^28-2 bytes; above, the int buffer size can overflow. Recursion depth (stack overflow on deep nesting) is not modelled."
  },
  {
   "property": "C70",
   "status": "proved",
   "theorems": [
    "C70_equality"
   ],
   "note": ""
  },
  {
   "property": "C71",
   "status": "partial",
   "theorems": [
    "C71_uninitialised_refuted",
    "C71_never_throws_partial",
    "C71_keeps_default_partial",
    "C71_agrees_with_cast_partial"
   ],
   "note": "Refuted: optional<int> and the like copy an uninitialised T. Proved for types whose optionals hold only default-initialised types."
  },
  {
   "property": "C72",
   "status": "partial",
   "theorems": [
    "C72_end_of_data_refuted",
    "C72_reads_stream_partial",
    "C72_lookahead_lost_refuted"
   ],
   "note": "Refuted: after a number and trailing white space a second parse throws parse_error; operator>> loses the look-ahead character after a number."
  },
  {
   "property": "C73",
   "status": "partial",
   "theorems": [
    "C73_multipart_partial",
    "C73_dashes_partial",
    "C73_nested_refuted",
    "C73_multipart_refuted",
    "C73_semicolon_refuted",
    "C73_multipart_total"
   ],
   "note": "False of the code (witnesses): a value line starting with two dashes hides the next boundary if that starts within the boundary's length; a quoted name with a semicolon is cut; several files for one name in a nested multipart/mixed part are refused when lines end in CRLF, because the inner boundary is taken with its CR. Partial: exact, including the header kept in file_info, for parts in which each line starting with two dashes is followed in the part by as many bytes as the boundary has, and names without quote, semicolon, CR, LF. Nested parts with LF line ends only by example. Termination proved for every text."
  },
  {
   "property": "C74",
   "status": "partial",
   "theorems": [
    "C74_calendar_roundtrip",
    "C74_components_partial",
    "C74_components_refuted"
   ],
   "note": "Round trip proved for every zone. False of the constructor from components: isdst is read uninitialised, and wherever the flag matters the result depends on it. Partial: right if the flag found is right. yday and wday are only copied."
  },
  {
   "property": "C75",
   "status": "partial",
   "theorems": [
    "C75_call_returns_result_partial",
    "C75_method_not_found",
    "C75_type_mismatch",
    "C75_exception_reported",
    "C75_rpc_error_unanswered_refuted",
    "C75_short_arguments_refuted",
    "C75_error_kinds",
    "C75_bad_request_kills_refuted"
   ],
   "note": "Proved for value, unknown method, wrong type and exception. False of the code: an rpc_error thrown by the function is never answered, missing arguments are not noticed, and a request whose method is not a string ends the server (refuted theorems)."
  },
  {
   "property": "C76",
   "status": "partial",
   "theorems": [
    "C76_numbered_partial",
    "C76_constant_refuted"
   ],
   "note": "Proved for queries whose string constants hold no question mark; with one, it is replaced and numbered too (C76_constant_refuted). The SQL reading is reduced to text outside quotes, quoted constants and parameters."
  },
  {
   "property": "C77",
   "status": "partial",
   "theorems": [
    "C77_float_back_partial",
    "C77_float_kept",
    "C77_float_large",
    "C77_round_trip_partial",
    "C77_null",
    "C77_determined",
    "C77_nul_refuted",
    "C77_stamp_sent",
    "C77_stamp_partial",
    "C77_fraction_refuted",
    "C77_whole_second_refuted",
    "C77_float_error_partial",
    "C77_float_collapse_refuted"
   ],
   "note": "Booleans, integers, strings without NUL and NULL round trip. Refuted: strings with NUL are cut; times whose microseconds end in zero come back with fewer; whole seconds call atoi(NULL). Doubles are rounded to 10 decimals (C77_float_collapse_refuted) and come back as the nearest double to that (C77_float_back_partial), so unchanged exactly if they are the nearest to some number with ten decimals (C77_float_kept), as all from 2^19 on (C77_float_large); the server is to show doubles by texts that determine them. Infinities and NaN are not modelled here."
  },
  {
   "property": "C78",
   "status": "partial",
   "theorems": [
    "C78_execute_partial",
    "C78_count",
    "C78_unknown",
    "C78_null_refuted"
   ],
   "note": "Proved for arguments other than NULL; NULL is sent as an empty string (C78_null_refuted). What the client library makes of a MYSQL_BIND is taken from its manual."
  },
  {
   "property": "C79",
   "status": "partial",
   "theorems": [
    "C79_rows_partial",
    "C79_unsigned_refuted",
    "C79_varchar_refuted",
    "C79_bool_refuted"
   ],
   "note": "Proved for the column types the driver knows, signed values, and the right daylight saving flag; refuted for unsigned columns, VARCHAR and decimal columns, and booleans. What mysql_stmt_fetch writes is taken from the manual."
  },
  {
   "property": "C80",
   "status": "partial",
   "theorems": [
    "C80_request_sent",
    "C80_response_sent",
    "C80_request_received_partial",
    "C80_response_received_partial",
    "C80_bodiless_received_partial",
    "C80_chunked_received_partial",
    "C80_response_ends",
    "C80_header_refuted",
    "C80_empty_body_refuted",
    "C80_junk_code_refuted",
    "C80_request_ends_refuted"
   ],
   "note": "Sending is proved in full for a header without Content-Length. Receiving is proved for messages with a body (Content-Length), with chunks and without a body, for URIs that the parser reads, lines up to 4094 bytes and fields as in C27. False of the code: the received header has empty fields Transfer-Encoding and Content-Length more; the body of a message without one is what follows on the connection; a status line without a code leaves code_ uninitialized; a request line with an encoded byte near the end of the host is read out of bounds (C25)."
  },
  {
   "property": "C81",
   "status": "proved",
   "theorems": [
    "C81_written",
    "C81_synced",
    "C81_read"
   ],
   "note": "For every kernel (writing) and for kernels that do not fail (reading)."
  },
  {
   "property": "C82",
   "status": "partial",
   "theorems": [
    "C82_get_partial",
    "C82_post_partial",
    "C82_multipart_partial",
    "C82_other_partial",
    "C82_process_environment",
    "C82_hyphen_refuted",
    "C82_chunked_refuted"
   ],
   "note": "Proved for requests as in C80 (lines up to 4094 bytes, URIs the parser reads, body with Content-Length), forms as in C32 and C73. False of the code: the variable of a field with a hyphen keeps the hyphen (HTTP_USER-AGENT, not HTTP_USER_AGENT as RFC 3875 says); a body sent in chunks is ignored, since only CONTENT_LENGTH is asked."
  },
  {
   "property": "C83",
   "status": "partial",
   "theorems": [
    "C83_answer",
    "C83_multipart_answer",
    "C83_too_long",
    "C83_short_refuted",
    "C83_boundary_refuted"
   ],
   "note": "Proved for every program, every page and every status, for fields that fit on a line with different names and without Content-Length; a body longer than the limit is answered by the page 500 without calling the program. False of the code: the page 'Request is too short' is never delivered (the end of the stream has closed the socket, sending throws); a multipart form without boundary throws before the page 'Invalid html protocol'."
  },
  {
   "property": "C84",
   "status": "partial",
   "theorems": [
    "C84_rows_partial",
    "C84_matrix_partial",
    "C84_matrix_shape",
    "C84_rows_shape_partial",
    "C84_unchanged_refuted",
    "C84_pitch_refuted",
    "C84_inverse_partial"
   ],
   "note": "Sides up to 2^32 (C44). Data stored row by row keeps transformed rows when length_error is thrown for the number of rows (C84_unchanged_refuted), and a pitch of 0 divides by zero (C84_pitch_refuted). The inverse is not scaled."
  },
  {
   "property": "C85",
   "status": "partial",
   "theorems": [
    "C85_components",
    "C85_module",
    "C85_inner",
    "C85_outer2",
    "C85_outer3",
    "C85_division",
    "C85_normalize_partial",
    "C85_integers_refuted"
   ],
   "note": "Arithmetic of the component type is that of a ring or field (no overflow, no rounding). normalize needs an exact square root and a nonzero vector; over integers the factors are rounded to 0 (C85_integers_refuted). The outer products in component_by_array cannot be instantiated."
  },
  {
   "property": "C86",
   "status": "partial",
   "theorems": [
    "C86_double_text",
    "C86_double_text_refuted",
    "C86_double_large",
    "C86_char_text_partial",
    "C86_char_text_refuted",
    "C86_double_short_refuted",
    "C86_float_text",
    "C86_float_text_refuted",
    "C86_float_special_refuted",
    "C86_float_large",
    "C86_float_short_refuted",
    "C86_order",
    "C86_index",
    "C86_index_refuted",
    "C86_arrays",
    "C86_text",
    "C86_short_refuted",
    "C86_overflow"
   ],
   "note": "Indices out of range are undefined behaviour or abort (C86_index_refuted); reading a text with too few numbers copies variables that were never set (C86_short_refuted). Vectors of double: each component comes back rounded to six digits (C86_double_text); after an infinity or NaN the remaining variables are never set (C86_double_text_refuted). Vectors of char come back exactly if no component is a blank (C86_char_text_partial, C86_char_text_refuted). Vectors of float: the same (C86_float_text, C86_float_text_refuted, C86_float_special_refuted); a number too large becomes the largest one and fails the stream (C86_double_large, C86_float_large); texts with too few numbers leave variables unset (C86_double_short_refuted, C86_float_short_refuted). Vectors of long double as text are not modelled."
  },
  {
   "property": "C87",
   "status": "partial",
   "theorems": [
    "C87_noticed",
    "C87_owned_partial",
    "C87_bytes",
    "C87_nothing_left_partial",
    "C87_open",
    "C87_close",
    "C87_size_refuted",
    "C87_move_refuted",
    "C87_theft_refuted"
   ],
   "note": "Holds for programs that move only objects that are not open. Moving an open one unmaps and closes the file, because the temporary that takes the old members over is destroyed (C87_move_refuted); the moved object later closes a descriptor that may belong to another (C87_theft_refuted). A closed object keeps its size (C87_size_refuted)."
  },
  {
   "property": "C88",
   "status": "proved",
   "theorems": [
    "C88_safe",
    "C88_once",
    "C88_released",
    "C88_start",
    "C88_join"
   ],
   "note": "pthread_join answers 0 only when the thread has ended, pthread_detach of a joinable thread succeeds (as the code assumes)."
  },
  {
   "property": "C89",
   "status": "partial",
   "theorems": [
    "C89_sleep_partial",
    "C89_no_time",
    "C89_long_refuted"
   ],
   "note": "2^63 seconds or more, and infinity, are converted to time_t out of range (C89_long_refuted)."
  },
  {
   "property": "C90",
   "status": "partial",
   "theorems": [
    "C90_total_partial",
    "C90_free_partial",
    "C90_free_refuted",
    "C90_bytes_refuted",
    "C90_load",
    "C90_no_throw"
   ],
   "note": "A unit of /proc/meminfo is 1024 bytes but the code counts 1000, so both numbers are 2.3 % too small (C90_bytes_refuted); free memory or cache of 2 TiB or more overflows atoi, undefined behaviour (C90_free_refuted)."
  },
  {
   "property": "C91",
   "status": "proved",
   "theorems": [
    "C91_meaning",
    "C91_page",
    "C91_throw",
    "C91_reads_back"
   ],
   "note": "Assumes that the compiler elides the copy in the macro tag__ (it is guaranteed from C++17 on)."
  },
  {
   "property": "C92",
   "status": "partial",
   "theorems": [
    "C92_get_type",
    "C92_nested",
    "C92_traverse",
    "C92_print",
    "C92_text_partial",
    "C92_text_refuted",
    "C92_format_refuted"
   ],
   "note": "The text determines the tree only if no name has punctuation in it (C92_text_partial): NAMED_MEMBER takes any text as the name, so two types can have one text (C92_text_refuted). All floating types print as float, so the text does not determine the format in an archive (C92_format_refuted)."
  },
  {
   "property": "C93",
   "status": "partial",
   "theorems": [
    "C93_each_partial",
    "C93_round_trip_partial",
    "C93_double_refuted",
    "C93_nul_refuted",
    "C93_floats_partial",
    "C93_minus_zero_refuted"
   ],
   "note": "Proved for values without floating numbers and U+0000 (C93_each_partial, C93_round_trip_partial) and for values of any type without json in it whose doubles are +0 or normal and have at most 12 decimal digits (C93_floats_partial), each text below 2^30 bytes. Other floating numbers are rounded to 12 digits (C93_double_refuted), -0 becomes +0 (C93_minus_zero_refuted) and strings are cut at U+0000 (C93_nul_refuted)."
  },
  {
   "property": "C94",
   "status": "partial",
   "theorems": [
    "C94_text",
    "C94_read_partial",
    "C94_subnormal_refuted",
    "C94_kept_partial",
    "C94_zero",
    "C94_digits_refuted"
   ],
   "note": "Reading back holds for normal numbers and zero: the text of a subnormal number is rejected by the parser (C94_subnormal_refuted). Numbers with more digits come back changed (C94_digits_refuted). The printing and reading of digits is the C library's, modelled as correctly rounding."
  },
  {
   "property": "C95",
   "status": "partial",
   "theorems": [
    "C95_owner_partial",
    "C95_released_partial",
    "C95_connect",
    "C95_retry_refuted",
    "C95_create",
    "C95_interrupted_refuted",
    "C95_copy_refuted",
    "C95_create_leak_refuted",
    "C95_create_twice_refuted",
    "C95_accept_leak_refuted",
    "C95_stop_refuted"
   ],
   "note": "Proved for all programs and kernels under guards: no copied socket, create not called on a server_socket that is alive, mprpc's server not stopped between sock.get() and ::accept, no ::close interrupted; for the release of all descriptors also that ::close does not fail. Each guard is needed (_refuted): NO_INTR repeats an interrupted ::close, though Linux has released the descriptor; implicit copies close twice; create forgets or closes twice the descriptor; accept loses the connection when closing the fresh object's socket fails; accept on a closed, possibly reused descriptor. After a failed connect or a lost connection a stream_socket can never connect again (C95_retry_refuted)."
  },
  {
   "property": "C96",
   "status": "partial",
   "theorems": [
    "C96_postgresql_partial",
    "C96_mysql_partial",
    "C96_caught_refuted",
    "C96_lost_refuted",
    "C96_part_refuted",
    "C96_commit_refuted",
    "C96_commit_rejected_refuted",
    "C96_begin_rejected_refuted",
    "C96_unwinding_refuted",
    "C96_nested_refuted",
    "C96_terminates_refuted"
   ],
   "note": "PostgreSQL: for all answers nothing is stored in part, a block that throws stores nothing, one that ends normally stores all unless a failing run was caught in it. MySQL: atomic while the connection holds and no BEGIN, COMMIT or ROLLBACK is rejected. False of the code otherwise (_refuted): MySQL's run and query silently reconnect, so a block can be stored in part, stay after a rollback, or be lost although it ended normally; results of BEGIN and COMMIT are not looked at; uncaught_exception() rolls back blocks run during unwinding; nested blocks; PostgreSQL's COMMIT after a caught failure rolls back silently; failing COMMIT or ROLLBACK and deleting a lost connection terminate the program (C++11 destructors)."
  },
  {
   "property": "C97",
   "status": "partial",
   "theorems": [
    "C97_request_partial",
    "C97_port",
    "C97_body_partial",
    "C97_refused",
    "C97_ends_partial",
    "C97_port_refuted",
    "C97_host_refuted",
    "C97_fragment_refuted",
    "C97_schemeless_refuted",
    "C97_case_of_scheme_refuted",
    "C97_truncated_refuted",
    "C97_empty_refuted"
   ],
   "note": "Proved for URLs accepted by the parser's guards (C24): port 80 and no fragment for the request text, ports below 65536 for the connection, bodies of nonzero length, in chunks (no byte 255) or up to the end of the connection. Refuted: ports above 65535 wrap around, Host lacks the port, the fragment is sent, a URL without scheme gives a malformed target, HTTP:// is refused, truncated bodies end like whole ones, Content-Length 0 reads on."
  },
  {
   "property": "C98",
   "status": "partial",
   "theorems": [
    "C98_session_partial",
    "C98_version_refuted",
    "C98_empty_string_refuted",
    "C98_empty_key_refuted",
    "C98_long_refuted",
    "C98_float_refuted",
    "C98_bool_refuted",
    "C98_stream_refuted",
    "C98_same_name_refuted",
    "C98_cut_refuted"
   ],
   "note": "Proved for every list of services whose types are integers of 1, 2 or 4 bytes, double, strings, vectors, maps with such integers or strings as keys, and classes that name themselves and all their members (nested in any way), with names that PHP accepts and tells apart; for every sequence of proper calls, when fread gets what it asks for and results contain no empty string. Refuted: servers of another version than 1 refuse every call; empty strings come back as false, empty keys as 0; eight-byte integers come back as null and leave the connection out of step; floats come back as null; bool, char and stream types make the program fail; classes with the same name are confused; a short fread cuts strings off."
  },
  {
   "property": "C99",
   "status": "partial",
   "theorems": [
    "C99_stream",
    "C99_output",
    "C99_output_failure",
    "C99_fcgi",
    "C99_later_served_refuted",
    "C99_options",
    "C99_exit",
    "C99_range",
    "C99_number_refuted",
    "C99_too_large_refuted",
    "C99_again_refuted",
    "C99_again",
    "C99_mode",
    "C99_mode_refuted"
   ],
   "note": "Proved: FastCGI streams deliver the bytes of the request in any order of looking and taking (C99_stream) and pass on what is written, or a beginning of it after a failed call (C99_output, C99_output_failure); the FastCGI loop answers each request as a process of its own would, in order, until the program throws (C99_fcgi); the command line in every spelling gives port, threads and timeout, the last counting (C99_options), the first bad setting ends with its message (C99_exit), the server never listens with a port or a number of threads out of range (C99_range); the words -s and --server choose the server (C99_mode). False: requests after one that throws are not served (C99_later_served_refuted); numbers with trailing text are taken and large ones wrap (C99_number_refuted, C99_too_large_refuted); a second server in the process ignores the options (C99_again_refuted, C99_again); joined or abbreviated spellings of the server option do not choose the server (C99_mode_refuted)."
  },
  {
   "property": "C100",
   "status": "partial",
   "theorems": [
    "C100_join",
    "C100_threads",
    "C100_own",
    "C100_safe",
    "C100_stop",
    "C100_shutdown",
    "C100_join_safe_refuted",
    "C100_destroy_refuted",
    "C100_silent_client_refuted",
    "C100_restart_refuted",
    "C100_stranger_refuted",
    "C100_double_stop_refuted",
    "C100_serv_refuted",
    "C100_negative_refuted"
   ],
   "note": "partial: proved that join() waits for all threads under every schedule and every order of calls (C100_join), and for an owner that joins before it creates, runs or destroys again (and nobody else opening descriptors in between) that no more threads serve than asked for, that connections and closed descriptors are the server's own, that nothing is undefined while all threads can be made, and that after stop() every thread ends within four steps and join() returns. False of the code: join() after a run() that could not make its threads follows a null pointer; a server stopped but not joined must not be destroyed; join() does not return while a silent client keeps a connection; run() without join() brings old threads back; a thread that has read the descriptor may take a stranger's connection; two stop()s at a time may close somebody else's descriptor; serv() on a running server returns false but has replaced the port; run(-1) throws and stays running. The states of a thread are between its reads of shared data; the closing of the connections themselves is C58 and Fd_Model."
  },
  {
   "property": "C101",
   "status": "partial",
   "theorems": [
    "C101_rows",
    "C101_fetch",
    "C101_execute",
    "C101_run",
    "C101_own_partial",
    "C101_bad_row",
    "C101_restored",
    "C101_own_refuted",
    "C101_closed_refuted",
    "C101_connect",
    "C101_connect_refuted"
   ],
   "note": "partial: rows are proved for all histories (C101_rows, C101_fetch); execute() is proved to run the query prepared latest on the connection (C101_execute), which is its own if no other was prepared since (C101_own_partial); run() runs its own (C101_run); the settings are proved for words, and for the password exactly characterised (C101_connect). False of the code: all statements share the unnamed prepared statement, so a statement prepared before begin_transaction() runs BEGIN when executed, and ROLLBACK after the connection object is gone; values in the connection string are not quoted, so a password may name another host and an empty host swallows the port; a row that cannot be read is never passed (C101_bad_row). The server is any function of its state; libpq's reading of connection strings is specified after its manual. While the server can be reached, a lost session costs one call (C101_restored)."
  },
  {
   "property": "C102",
   "status": "partial",
   "theorems": [
    "C102_session_partial",
    "C102_version_refuted",
    "C102_negative_refuted",
    "C102_zero_refuted",
    "C102_sizes_refuted",
    "C102_long_argument_refuted",
    "C102_wide_refuted",
    "C102_types_refuted",
    "C102_names_refuted",
    "C102_nameless_refuted",
    "C102_second_refuted"
   ],
   "note": "Proved for every first service whose types are four-byte integers, char, double, strings, vectors, maps with ordered keys and classes that name themselves (nested in any way), with names that Haskell accepts and tells apart, against servers of version 1, for every sequence of proper calls whose results hold no negative integers, NaN or -0. Refuted: other versions; negative results come as large positive numbers; integers of other sizes and floats put the connection out of step or hang; characters above 255 lose bits; bool, stream, classes as map keys and classes without members make the module not compile, as do many pairs of names; services after the first are left out."
  },
  {
   "property": "C103",
   "status": "partial",
   "theorems": [
    "C103_php_partial",
    "C103_haskell_partial",
    "C103_keeps_partial",
    "C103_status_partial",
    "C103_deletes_refuted",
    "C103_status_refuted",
    "C103_option_refuted",
    "C103_name_refuted",
    "C103_undefined_refuted",
    "C103_blank_refuted"
   ],
   "note": "Proved for the documented command line with PHP and Haskell when the compiler, the shell and the file system go along, for headers whose name has its suffix only at the end; and, for all command lines and all courses of events, which files can be touched at all. Refuted: files of the user are deleted by the languages that are not implemented; status 0 after failures; a file left after a failed compilation; options with two dashes or blanks; suffixes inside the name; undefined behaviour without temporary files and for Haskell without services."
  },
  {
   "property": "C104",
   "status": "partial",
   "theorems": [
    "C104_values_partial",
    "C104_clone",
    "C104_copy",
    "C104_values_refuted",
    "C104_merge",
    "C104_merge_refuted",
    "C104_finite_refuted",
    "C104_read_refuted"
   ],
   "note": "Partial: values_partial is for programs that store new documents and clones only; values_refuted, merge_refuted and finite_refuted show that the claim is false of the code for programs that copy."
  },
  {
   "property": "C105",
   "status": "partial",
   "theorems": [
    "C105_same_outcome",
    "C105_place_partial",
    "C105_place_refuted",
    "C105_line_refuted"
   ],
   "note": "C105_place_partial: the error comes with reading some character c of the text; the place is that of c or of what follows c; if c is not the last character, every text that begins like this fails with the same place, no RFC 8259 text begins like this (texts below 2^28-2 bytes), and in texts without quotation marks the place is that of c. C105_same_outcome: counting does not change the outcome, so C68 and C69 apply. Refuted: in strings the place is one too far (C105_place_refuted: wrong escapes; C105_line_refuted: a line feed in a string is reported in the next line). Missing: at the very end of the text (numbers out of range, an exponent without digits) nothing is said about continuations; end_of_data carries no place."
  },
  {
   "property": "C106",
   "status": "partial",
   "theorems": [
    "C106_orderly",
    "C106_closes",
    "C106_run",
    "C106_started",
    "C106_run_nothing",
    "C106_safe_partial",
    "C106_safe_refuted",
    "C106_join_refuted",
    "C106_sync_refuted",
    "C106_failed_start_refuted",
    "C106_twice_refuted",
    "C106_survives_refuted"
   ],
   "note": "C106_orderly: in every reached state each thread takes its connections in turn, each CGI object works on one at a time and for one thread only, each connection is worked on at most once. C106_closes: an accepted connection is closed after at most four more turns of its thread. C106_run: run(false) returns and has started thread_num threads (C106_started) if clones and threads can be made; C106_run_nothing: no socket, negative number. C106_safe_partial: if clones and threads can be made no thread uses a destroyed server. Refuted: a failing second run() followed by the destructor lets a thread begin in a destroyed server (C106_safe_refuted); join(), the destructor and run(true) never return once a thread runs (C106_join_refuted, C106_sync_refuted: the threads have no end); a run() that throws leaves threads serving (C106_failed_start_refuted); a second run() doubles the threads (C106_twice_refuted); an exception that is not a std::exception ends the process (C106_survives_refuted)."
  },
  {
   "property": "C107",
   "status": "partial",
   "theorems": [
    "C107_single",
    "C107_same",
    "C107_ends",
    "C107_enters",
    "C107_recursion_refuted",
    "C107_before_refuted",
    "C107_after_refuted",
    "C107_lock_refuted",
    "C107_safe_partial"
   ],
   "note": "C107_single, C107_same: for all schedules, one object at most, the same for all; exceptions of the constructor are passed on once. C107_ends, C107_enters: a call that has the mutex ends within three own steps, one that waits gets it when it is free. C107_safe_partial: nothing undefined while the static mutex exists and can be locked. Refuted: a call before the static mutex is made or after it is gone (C107_before_refuted, C107_after_refuted), a mutex that cannot be locked (C107_lock_refuted: the function ends without return), a constructor that calls instance() waits for ever (C107_recursion_refuted)."
  },
  {
   "property": "C108",
   "status": "partial",
   "theorems": [
    "C108_once_partial",
    "C108_released_partial",
    "C108_safe_partial",
    "C108_reset_refuted",
    "C108_two_refuted",
    "C108_bool"
   ],
   "note": "C108_once_partial, C108_released_partial, C108_safe_partial: for all sequences of operations in which no address is handed over twice, each object is held by one scoped_ptr and deleted once. Refuted without the guard: reset(get()) deletes what it keeps (C108_reset_refuted); two scoped_ptrs with one address (C108_two_refuted). C108_bool: the tests."
  },
  {
   "property": "C109",
   "status": "partial",
   "theorems": [
    "C109_socket_partial",
    "C109_refused",
    "C109_mprpc_negative_refuted",
    "C109_tiny_refuted",
    "C109_long_refuted",
    "C109_deadline_partial",
    "C109_deadline_refuted"
   ],
   "note": "C109_socket_partial: 0 <= q < 2^31 is handed over well formed and right up to a microsecond; C109_deadline_partial: deadlines are right up to three microseconds until 2106. C109_refused: negative times are refused by stream_socket and server_socket. Refuted: mprpc sockets take negative times as waiting for ever or are undefined (C109_mprpc_negative_refuted); times below a microsecond wait for ever (C109_tiny_refuted); long times, infinity and NaN are undefined (C109_long_refuted, C109_deadline_refuted)."
  },
  {
   "property": "C110",
   "status": "partial",
   "theorems": [
    "C110_tries",
    "C110_connect_partial",
    "C110_unknown",
    "C110_broadcast_refuted",
    "C110_nul_refuted",
    "C110_accept",
    "C110_resolver_partial",
    "C110_lock_refuted"
   ],
   "note": "C110_tries: for any resolver; C110_connect_partial: for the library's, unless the host has a NUL or the address is 255.255.255.255; C110_unknown, C110_accept; C110_resolver_partial: the resolver set last is used, if the mutex can be locked. Refuted: 255.255.255.255 is dropped (C110_broadcast_refuted), a host is cut at a NUL (C110_nul_refuted), a lock that fails loses the resolver or follows a null pointer (C110_lock_refuted)."
  },
  {
   "property": "C111",
   "status": "partial",
   "theorems": [
    "C111_text",
    "C111_read",
    "C111_sound",
    "C111_back",
    "C111_kept",
    "C111_digits",
    "C111_stable",
    "C111_precision_refuted",
    "C111_special_text",
    "C111_special_refuted",
    "C111_rest_refuted",
    "C111_from_int",
    "C111_to_int_partial",
    "C111_to_int_refused",
    "C111_to_int_refuted"
   ],
   "note": "kept holds exactly for doubles that are nearest to a number of at most six digits (iff); precision_refuted: other doubles change; special_refuted: infinities and NaN are not read back; rest_refuted: following text is ignored or makes the number unreadable (12euro); to_int_partial: doubles that are integers below 10^6, to_int_refuted: 1e6 becomes 1. operator<< and operator>> of libstdc++ in the C locale are modelled by their documented conversions. C111_stable: a second trip changes nothing; C111_digits: texts of at most six digits come back as the same number."
  },
  {
   "property": "C112",
   "status": "partial",
   "theorems": [
    "C112_unit",
    "C112_below_partial",
    "C112_below_refuted",
    "C112_between_partial",
    "C112_between_refuted",
    "C112_wide_refuted",
    "C112_gaussian"
   ],
   "note": "C112_unit and C112_gaussian are full; C112_below_partial holds for a > 2^-1022 and C112_below_refuted shows that it fails for every smaller positive a; C112_between_partial gives [a,b] instead of [a,b), which C112_between_refuted shows to be false; C112_wide_refuted for differences that overflow. The values sqrt, log, sin and cos give are not modelled: r1 and r2 are arbitrary functions of the two draws."
  },
  {
   "property": "C113",
   "status": "partial",
   "theorems": [
    "C113_value_partial",
    "C113_compare_partial",
    "C113_order",
    "C113_late_refuted",
    "C113_elapsed_partial",
    "C113_back_refuted"
   ],
   "note": "C113_value_partial and C113_compare_partial: before 2^33 seconds; C113_late_refuted shows that the bound is sharp. C113_order: all normalised times. C113_elapsed_partial: the clock has not been set back; C113_back_refuted says what happens otherwise, for every pair of times."
  },
  {
   "property": "C114",
   "status": "partial",
   "theorems": [
    "C114_answers_partial",
    "C114_order_refuted"
   ],
   "note": "C114_answers_partial for every schedule (sizes below 2^31; a larger one is converted to int); C114_order_refuted: for the schedule given there is no order with exact answers. Locking is taken as never failing, as in C53."
  },
  {
   "property": "C115",
   "status": "partial",
   "theorems": [
    "C115_kept",
    "C115_zero_partial",
    "C115_widened",
    "C115_refused",
    "C115_cast",
    "C115_overflow",
    "C115_integer",
    "C115_kinds",
    "C115_twice_refuted",
    "C115_unsigned_partial",
    "C115_unsigned_refuted"
   ],
   "note": "Refuted where the text is rounded twice, for the sign of zero and for unsigned integers from 2^63 on. Everything else is proved for all floats; conversion of too large numbers follows IEEE 754."
  },
  {
   "property": "C116",
   "status": "proved",
   "theorems": [
    "C116_written",
    "C116_word",
    "C116_words",
    "C116_none",
    "C116_blank_lost"
   ],
   "note": "C locale, width 0, skipws set. Blanks are the six ASCII ones; U+3000 is part of a word. Code points above 0x10FFFF are written as nothing (C05)."
  },
  {
   "property": "C117",
   "status": "partial",
   "theorems": [
    "C117_once_partial",
    "C117_use_count",
    "C117_released",
    "C117_safe_partial",
    "C117_values",
    "C117_lock",
    "C117_lock_empty",
    "C117_this",
    "C117_twice_refuted"
   ],
   "note": "Partial: one thread; the control blocks are those of libstdc++ as documented; the destructor of the object does nothing with pointers. C117_once_partial: given once, deleted at most once, there exactly while some shared_ptr points to it. C117_use_count, C117_released, C117_values (what every pointer points to after each operation), C117_lock, C117_lock_empty, C117_this. C117_safe_partial: undefined only for null dereferenced and shared_from_this of a dead object. False if one address is handed over twice: C117_twice_refuted."
  },
  {
   "property": "C118",
   "status": "partial",
   "theorems": [
    "C118_text",
    "C118_read",
    "C118_sound",
    "C118_back",
    "C118_kept",
    "C118_stable",
    "C118_digits",
    "C118_precision_refuted",
    "C118_special_refuted",
    "C118_to_double",
    "C118_to_float",
    "C118_to_double_refuted"
   ],
   "note": "Partial: kept exactly for floats that are nearest to a number of at most six digits (C118_kept, iff); C118_precision_refuted: others change; C118_special_refuted: infinities and NaN are not read back; C118_to_double_refuted: lexical_cast from float to double goes through six digits, 16777216 becomes 16777200. C118_text, C118_read, C118_sound, C118_back, C118_stable, C118_digits, C118_to_double, C118_to_float are for all floats. operator<< and operator>> of libstdc++ in the C locale, with strtof correctly rounding."
  },
  {
   "property": "C119",
   "status": "proved",
   "theorems": [
    "C119_nested",
    "C119_given_back",
    "C119_guarded",
    "C119_runs",
    "C119_alive",
    "C119_refused"
   ],
   "note": "Proved for one thread; that other threads are kept out meanwhile is C49 and C55. An empty unique_ptr and an unlock() that throws end the program (examples)."
  },
  {
   "property": "C120",
   "status": "partial",
   "theorems": [
    "C120_what_partial",
    "C120_parts",
    "C120_read_partial",
    "C120_read_refuted",
    "C120_nul_refuted",
    "C120_default"
   ],
   "note": "Partial: for texts without NUL and, for telling the parts, file names without colon. False otherwise (witnesses): a message after a NUL is not shown; with colons in the name two errors can have the same text."
  },
  {
   "property": "C121",
   "status": "partial",
   "theorems": [
    "C121_history_partial",
    "C121_others",
    "C121_open_failed_refuted",
    "C121_row_num_refuted",
    "C121_destructor_refuted",
    "C121_missing_data_refuted",
    "C121_full_disk_refuted",
    "C121_transpose_partial",
    "C121_statistics_refuted",
    "C121_transpose_refuted"
   ],
   "note": "Proved for programs of any length while the system does what it is asked (C121_history_partial), transposing by name also onto itself (C121_transpose_partial), and that other files never change (C121_others, any failures). False of the code: rows appended after a failed open vanish silently (C121_open_failed_refuted), row_num() of a closed writer dereferences a null pointer (C121_row_num_refuted), a writer destroyed while open leaves a missing or stale offset file (C121_destructor_refuted), a missing data file opens with 0 (C121_missing_data_refuted) and transposes to an empty matrix with 0 (C121_transpose_refuted), a full disk is not noticed (C121_full_disk_refuted), and matrix_transpose empties its destination before returning -1 (C121_statistics_refuted)."
  },
  {
   "property": "C122",
   "status": "partial",
   "theorems": [
    "C122_own",
    "C122_rows",
    "C122_execute",
    "C122_result",
    "C122_commit_refuted",
    "C122_null_refuted",
    "C122_no_other",
    "C122_stale",
    "C122_handles",
    "C122_two_refuted"
   ],
   "note": "Partial: proved in full for queries, rows, execute, stale statements and handles. Two parts of the claim are false of the code: while a statement has rows on the way (until fetch_row has returned false) begin, commit and rollback send nothing and return normally, because the result of mysql_query is not looked at (C122_commit_refuted), and other statements cannot be executed or prepared (C122_two_refuted); and prepare after a failed reconnection calls mysql_stmt_init(NULL) (C122_null_refuted, which shows that nothing else does). The client library is modelled after its manual."
  },
  {
   "property": "C123",
   "status": "partial",
   "theorems": [
    "C123_histories_partial",
    "C123_arrived",
    "C123_run_refuted"
   ],
   "note": "Partial: a call that was cut off behind its name is run if the function takes no arguments, whatever version the caller has, and the caller is told of an error (C123_run_refuted); everything else of the statement is proved (C123_histories_partial, C123_arrived) for proper calls as in C57, functions that return, and argument types without sets or maps of numbers (reading a piece of one is undefined, C12). Timeouts of writes are not modelled."
  },
  {
   "property": "C124",
   "status": "partial",
   "theorems": [
    "C124_protocol",
    "C124_there",
    "C124_bounded_partial",
    "C124_all_partial",
    "C124_connect",
    "C124_lost_refuted"
   ],
   "note": "Proved: the protocol of handles (C124_protocol), that living objects have theirs (C124_there), and connect (C124_connect), for all answers and all failures of allocation. That everything is given back (C124_bounded_partial, C124_all_partial) holds unless memory runs out between PQexecPrepared and the postgresql_result that is to hold its result; there the PGresult is lost (C124_lost_refuted, statement.cpp:94-99). One thread; an exception out of the ROLLBACK in the connection's destructor ends the program (C96), and histories end there."
  },
  {
   "property": "C125",
   "status": "partial",
   "theorems": [
    "C125_nodelay",
    "C125_keepalive_refuted",
    "C125_keepalive_expected_refuted",
    "C125_timeout_partial",
    "C125_half_refuted",
    "C125_server",
    "C125_listen",
    "C125_closed"
   ],
   "note": "Proved: results, TCP_NODELAY, timeouts, listening sockets, sockets without descriptor. Refuted: set_nodelay also turns SO_KEEPALIVE on or off (TCP_DEFER_ACCEPT is passed at the level SOL_SOCKET, where its number 9 is SO_KEEPALIVE; C125_keepalive_refuted, C125_keepalive_expected_refuted), and never defers accepting; a set_timeout that returns false may have set the timeout for receiving (C125_half_refuted). Guard of C125_timeout_partial: representable times from 0 to below 2^31 seconds (C109 has the others). Numbers of options as on Linux x86; the options of accepted sockets are not modelled."
  },
  {
   "property": "C126",
   "status": "partial",
   "theorems": [
    "C126_any_bytes_partial",
    "C126_fresh_partial",
    "C126_containers",
    "C126_any_order",
    "C126_first_stays",
    "C126_bool_refuted",
    "C126_set_refuted"
   ],
   "note": "C126_any_bytes_partial and C126_fresh_partial: all types without bool and without sets of bare numbers. C126_any_order and C126_first_stays: which elements sets and maps have that were not written in order or with repetitions. C126_bool_refuted: a byte from 2 on is copied into a bool, which is undefined. C126_set_refuted: a set of numbers whose stream ends inserts an uninitialised number. Memory for sizes taken from corrupt input is assumed to be there."
  },
  {
   "property": "C127",
   "status": "partial",
   "theorems": [
    "C127_result_partial",
    "C127_whole",
    "C127_message",
    "C127_name_refuted",
    "C127_uninitialised_refuted",
    "C127_number_refuted"
   ],
   "note": "C127_result_partial, C127_whole and C127_message: a cut reply gives an error, never a value, for all result types but sets of bare numbers (C12). Refuted: that errors are reported as sent. C127_name_refuted: a cut NotFound names another method, with NULs; C127_uninitialised_refuted: of a VersionMismatch cut in front of the numbers uninitialised numbers are thrown; C127_number_refuted: one cut inside the numbers reports a wrong version. The caller's side over a stream that ends; the server's side of a failed write is not modelled."
  },
  {
   "property": "C128",
   "status": "proved",
   "theorems": [
    "C128_prefix",
    "C128_all",
    "C128_silent"
   ],
   "note": "Over the socket model of C30; requests and answers are any protocol whose requests have a byte and whose answers end with a flush, as all of base.cpp's do. Functions that throw are not modelled; a request that is cut is C123's subject."
  }
 ]
}