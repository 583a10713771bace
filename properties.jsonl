{"id": "C01", "title": "Base64 round trip", "statement": "base64_decode(base64_encode(s)) == s, and decoding never throws on an encoded string.", "quantifier": "every byte string s of any length", "why_tests_cant": "infinitely many strings; padding depends on length mod 3 and bit patterns across byte boundaries", "anchors": ["src/data/encoding/base64.cpp: base64_encode, base64_decode"]}
{"id": "C02", "title": "Base64 output shape and injectivity", "statement": "base64_encode(s) has length 4*ceil(|s|/3), uses only A-Za-z0-9+/ with '=' only as final padding, and two different strings never share an encoding.", "quantifier": "every byte string / pair of byte strings", "why_tests_cant": "an unbounded domain; injectivity is a statement about pairs", "anchors": ["src/data/encoding/base64.cpp: base64_encode"]}
{"id": "C03", "title": "Base64 decoding rejects everything that is not an encoding", "statement": "base64_decode throws on every string that is not the encoding of some byte string (length not a multiple of 4, foreign characters, misplaced padding); what it accepts re-encodes to the same text.", "quantifier": "every byte string given to base64_decode", "why_tests_cant": "negative claim over all malformed inputs", "anchors": ["src/data/encoding/base64.cpp: base64_decode, toint"]}
{"id": "C04", "title": "URI percent-encoding round trip", "statement": "uri_decode(uri_encode(s)) == s; the encoded text contains only unreserved characters, '+' and %XX triplets with upper-case hex.", "quantifier": "every byte string", "why_tests_cant": "unbounded strings, all 256 byte values in every position", "anchors": ["src/network/uri.cpp: uri_encode, uri_decode, tohex, tochar"]}
{"id": "C05", "title": "UTF-8 encoding of a character round-trips", "statement": "Encoding any Unicode scalar value with uchar_to_chars yields a 1-4 byte well-formed sequence that chars_to_uchar decodes to the same value, consuming exactly those bytes whatever follows.", "quantifier": "every scalar value U+0000..U+10FFFF except surrogates, and every continuation of the stream", "why_tests_cant": "1.1 million values times every suffix", "anchors": ["src/data/string/ustring.h: uchar_to_chars, chars_to_uchar, chars_to_uchar_impl"]}
{"id": "C06", "title": "check_utf8 accepts exactly well-formed UTF-8", "statement": "check_utf8(s) is true iff s is a concatenation of well-formed UTF-8 sequences per RFC 3629 (no overlong forms, no surrogates, nothing above U+10FFFF).", "quantifier": "every byte string", "why_tests_cant": "both directions of an iff over all byte strings", "anchors": ["src/data/string/ustring.cpp: check_utf8", "src/data/string/ustring.h: chars_to_uchar_impl"]}
{"id": "C07", "title": "string <-> ustring conversion round-trips", "statement": "ustring_to_string(string_to_ustring(s)) == s for well-formed s and string_to_ustring(ustring_to_string(u)) == u for every sequence of scalar values; on arbitrary bytes string_to_ustring terminates inside the string, decodes every valid character it stands on and replaces each rejected piece by U+FFFD.", "quantifier": "every byte string and every sequence of scalar values", "why_tests_cant": "unbounded sequences; memory safety on arbitrary malformed bytes", "anchors": ["src/data/string/ustring.cpp: string_to_ustring, ustring_to_string"]}
{"id": "C08", "title": "sanitize_utf8 yields clean UTF-8", "statement": "sanitize_utf8(s) is always well-formed UTF-8 without C0 controls and noncharacters U+FFFE/U+FFFF, leaves already clean strings unchanged, is idempotent, and never reads past the end of s.", "quantifier": "every byte string", "why_tests_cant": "arbitrary malformed input, hand-written bound checks", "anchors": ["src/data/string/ustring.cpp: sanitize_utf8, utf8_skip"]}
{"id": "C09", "title": "Bit-level integer codes round-trip in any mix", "statement": "A decoder attached to the bytes of any sequence of gamma/delta/rice/fixed-width/prefix codes returns exactly the values that were put, in order.", "quantifier": "every finite sequence of codes and values in each code's domain", "why_tests_cant": "sequences of any length and any bit alignment", "anchors": ["src/data/code/code.cpp: encoder, decoder"]}
{"id": "C10", "title": "Byte codes mixed with bit codes round-trip", "statement": "encoder::byte may be freely interleaved with the bit-level codes and the decoder still returns the same values.", "quantifier": "every finite sequence of codes including byte", "why_tests_cant": "depends on the bit alignment left by every possible prefix", "anchors": ["src/data/code/code.cpp: encoder::byte, decoder::byte"]}
{"id": "C11", "title": "Binary archive round trip", "statement": "Reading from a binary_iarchive the type that was written to a binary_oarchive gives back an equal value, consumes exactly the bytes written and leaves the rest of the stream untouched, whatever the destination variable held before.", "quantifier": "every value of every type built from integers, bool, strings, vectors, deques, lists, pairs, maps, sets and optional fields, every following byte sequence, every prior destination value", "why_tests_cant": "infinite family of nested types and values", "anchors": ["src/data/serialization/base.h", "src/data/serialization/vector.h", "src/data/serialization/map.h", "src/data/serialization/string.h", "src/data/serialization/set.h", "src/data/serialization/pair.h"]}
{"id": "C12", "title": "Truncated archives are detected", "statement": "If the stream ends before the encoded value is complete the input archive reports failure (operator! / bool) after the read.", "quantifier": "every value and every proper prefix of its encoding", "why_tests_cant": "every cut point of every encoding", "anchors": ["src/data/serialization/base.h: binary_iarchive::read", "src/data/serialization/vector.h", "src/data/serialization/string.h"]}
{"id": "C13", "title": "Stream-backed serialization terminates", "statement": "Deserialising an embedded stream terminates on every input, including truncated ones.", "quantifier": "every input byte sequence", "why_tests_cant": "termination over all inputs", "anchors": ["src/data/serialization/iostream.h"]}
{"id": "C14", "title": "MD5 equals RFC 1321", "statement": "md5(s) is the RFC 1321 digest: the padding/length blocks produced by the streaming reader are exactly those of the padded message and the compression loop is the RFC's, so the digest depends on the bytes only, for every length.", "quantifier": "every byte string of any length (below 2^61 bytes)", "why_tests_cant": "padding boundary cases for every length mod 64; unbounded lengths", "anchors": ["src/data/digest/md5.h: itr_buf", "src/data/digest/md5.cpp: md5::md5, compress"]}
{"id": "C15", "title": "JSON text round-trips", "statement": "Parsing the text printed for a JSON value yields an equal value, for compact and pretty printing, with and without \\u escaping.", "quantifier": "every JSON value (any nesting) built from null, booleans, 64-bit integers, well-formed strings, arrays and objects", "why_tests_cant": "unbounded nesting and strings", "anchors": ["src/text/json/base.h: print, pretty, json_string::print", "src/text/json/parser.cpp"]}
{"id": "C16", "title": "JSON strings survive printing unchanged", "statement": "Every json_string, including ones with U+0000, is printed so that re-parsing gives back the same string.", "quantifier": "every string that is well-formed UTF-8", "why_tests_cant": "one excluded code point hidden among all strings", "anchors": ["src/text/json/base.h: json_string::print, print_string"]}
{"id": "C17", "title": "The JSON parser only produces well-formed strings", "statement": "Every string value and object key produced by a successful parse is well-formed UTF-8, whatever bytes and \\u escapes (including lone surrogates) the input contained.", "quantifier": "every input byte stream", "why_tests_cant": "all malformed inputs and surrogate combinations", "anchors": ["src/text/json/parser.cpp: parse_string_prim, parse_hex", "src/text/json/parser.h"]}
{"id": "C18", "title": "JSON numbers are read at full value wherever they appear", "statement": "A number token denotes the same value when it is the last thing in the stream as when it is followed by other text; malformed numbers are rejected.", "quantifier": "every number token and every context", "why_tests_cant": "depends on look-ahead state at end of stream", "anchors": ["src/text/json/parser.cpp: parse_number"]}
{"id": "C19", "title": "JSON merge is a right-biased deep merge", "statement": "a.merge_with(b) contains exactly the keys of a and b; nested objects are merged recursively, otherwise b's value wins; inputs are untouched; the operation is associative and idempotent.", "quantifier": "every pair/triple of JSON values", "why_tests_cant": "algebraic law over all nested values", "anchors": ["src/text/json/base.h: json::merge, json_object::merge"]}
{"id": "C20", "title": "Typed JSON conversion round-trips", "statement": "from_json(to_json(v)) == v for every value of the supported types (bool, integers within range, strings, vectors, maps, optional) and from_json never silently reads a value of another JSON kind.", "quantifier": "every value of every supported nested type", "why_tests_cant": "infinite family of types and values", "anchors": ["src/text/json/cast.h: to_json, from_json, json_cast"]}
{"id": "C21", "title": "CSV round trip", "statement": "parse_csv of a table written with standard quoting returns the same rows and fields.", "quantifier": "every table of non-NUL fields within the parser's buffer guard", "why_tests_cant": "fields with any mix of commas, quotes, newlines; any table size", "anchors": ["src/text/csv.h: csv_parser_base::next", "src/text/csv.cpp: parse_csv"]}
{"id": "C22", "title": "The CSV parser stays inside its buffers", "statement": "Reading any input never writes outside the field buffer nor reads beyond the end of the input.", "quantifier": "every input byte sequence", "why_tests_cant": "memory safety for every field length and every malformed tail", "anchors": ["src/text/csv.h: csv_parser_base::next"]}
{"id": "C23", "title": "HTML escaping is safe and reversible", "statement": "html_encode output contains none of < > \" ' and no bare &, and two different texts never escape to the same output.", "quantifier": "every byte string", "why_tests_cant": "injection safety is a claim about every input", "anchors": ["src/text/xhtml.cpp: html_encode"]}
{"id": "C24", "title": "URI parsing recovers the components", "statement": "Parsing a URI assembled from scheme, userinfo, host, port, path, query and fragment returns exactly these components; printing the parsed URI and parsing again gives the same components.", "quantifier": "every choice of components in the RFC 3986 character classes", "why_tests_cant": "combinatorial grammar with unbounded components", "anchors": ["src/network/uri.cpp: uri::parse, operator<<"]}
{"id": "C25", "title": "URI parsing never reads outside the string", "statement": "Constructing a uri from any string reads only within that string.", "quantifier": "every byte string", "why_tests_cant": "memory safety over all inputs", "anchors": ["src/network/uri.cpp: uri::parse_userinfo, parse_pct_encoded, parse_ipvfuture"]}
{"id": "C26", "title": "HTTP headers form a case-insensitive map", "statement": "After any sequence of set/erase operations, get/has_key/[] return what a map keyed by lower-cased names would return, and iteration lists every name once in first-insertion order.", "quantifier": "every operation sequence", "why_tests_cant": "history property", "anchors": ["src/network/http/base.cpp: header::set, get, erase, has_key, operator[]"]}
{"id": "C27", "title": "HTTP headers survive the wire", "statement": "Reading headers back from the text that send() wrote yields the same names and values, and stops exactly after the blank line.", "quantifier": "every header list with token names and single-line values, every following byte sequence", "why_tests_cant": "unbounded lists and values", "anchors": ["src/network/http/base.cpp: header::send, header::read_header", "src/network/socket.cpp: getline"]}
{"id": "C28", "title": "Chunked bodies are reassembled exactly", "statement": "A body sent in chunks is delivered to the reader as the concatenation of the chunk data and ends there, for any chunking.", "quantifier": "every byte string and every way of cutting it into chunks", "why_tests_cant": "all chunkings and all byte values", "anchors": ["src/network/http/base.cpp: basic_httpbody_chunked_streambuf"]}
{"id": "C29", "title": "Content-Length bodies deliver exactly n bytes", "statement": "With Content-Length n the body stream delivers exactly the next n bytes of the connection and then end-of-file, for every n >= 0.", "quantifier": "every n and every connection content", "why_tests_cant": "boundary n=0 hides in all n", "anchors": ["src/network/http/base.cpp: basic_httpbody_streambuf"]}
{"id": "C30", "title": "Socket buffering preserves the byte stream", "statement": "For any interleaving of write/puts/flush the bytes handed to the kernel, in order, are exactly the bytes written (up to what is still buffered), whatever partial sends occur; getc/read/getline return the received bytes in order exactly once, whatever the segmentation.", "quantifier": "every operation sequence and every kernel segmentation", "why_tests_cant": "schedules of short reads/writes", "anchors": ["src/network/socket.cpp: stream_socket::write, flush, read, getc, getline, send_all"]}
{"id": "C31", "title": "A reconnected socket starts clean", "statement": "After connect() to a new peer, no byte written for or received from the previous peer is sent or delivered.", "quantifier": "every history before the reconnect", "why_tests_cant": "history property", "anchors": ["src/network/socket.cpp: stream_socket::connect, close"]}
{"id": "C32", "title": "CGI query parsing recovers the form", "statement": "Parsing the URL-encoded text of a list of name/value pairs yields, for each name, exactly its values in order (multi_query) and the last value (query).", "quantifier": "every list of pairs of NUL-free strings", "why_tests_cant": "unbounded lists", "anchors": ["src/network/cgi/base.cpp: cgi::parse_input"]}
{"id": "C33", "title": "Fenwick tree equals prefix sums", "statement": "After any sequence of increase(k, n) calls with k >= 0 (positions past the size are ignored), query(a) is the sum of the increments at 0..a and query(a,b) the sum of those at a..b; no access outside the array for indices in range.", "quantifier": "every size and every operation history", "why_tests_cant": "index arithmetic on bits for every size", "anchors": ["src/data/fenwick_tree.h"]}
{"id": "C34", "title": "Intern tables are bijections", "statement": "After any history, ids are exactly 0..n-1, key2id and id2key are mutually inverse, an id never changes meaning until clear, and lookups without generation never modify the table; serialization restores the same table.", "quantifier": "every operation history", "why_tests_cant": "history property", "anchors": ["src/data/intern.h"]}
{"id": "C35", "title": "LRU cache refines a reference cache", "statement": "The lru container never holds more than max_size entries, returns for a key the value first stored since it was last absent, and evicts exactly the least recently used key.", "quantifier": "every operation history and every positive capacity", "why_tests_cant": "history property", "anchors": ["src/data/lru.h"]}
{"id": "C36", "title": "optional is a faithful lifting", "statement": "optional's comparison operators form a total order with empty least when the element order is total; the pointer-based class behaves as independent values under copying, assignment, writing through * and swapping, leaks nothing and never frees twice.", "quantifier": "every pair/triple of optionals", "why_tests_cant": "algebraic laws", "anchors": ["src/data/optional.h"]}
{"id": "C37", "title": "Aho-Corasick finds exactly the occurrences", "statement": "search(text) reports precisely the pairs (position, word) such that the word occurs there, each once.", "quantifier": "every dictionary of distinct NUL-free non-empty words and every text", "why_tests_cant": "all overlaps and failure chains", "anchors": ["src/data/string/aho_corasick.cpp"]}
{"id": "C38", "title": "KMP finds the first occurrence", "statement": "kmp find returns the least offset at which the query occurs, or npos if it does not occur, and never reads outside text and query.", "quantifier": "every text, offset and non-empty query", "why_tests_cant": "failure-function correctness for all strings", "anchors": ["src/data/string/kmp.h"]}
{"id": "C39", "title": "Edit distance, LCS and LIS are optimal", "statement": "edit_distance returns the minimum number of insertions, deletions and substitutions; LCS and LIS return the maximum length of a common (strictly increasing) subsequence.", "quantifier": "every pair of strings / every integer sequence", "why_tests_cant": "optimality over all edit scripts and subsequences", "anchors": ["src/data/string/algorithm.h"]}
{"id": "C40", "title": "split and join are inverse, strip trims exactly", "statement": "join(split(s,c),c) == s, every piece is free of the separator, split(join(xs,c),c) == xs; strip removes exactly the maximal leading/trailing blanks; replace substitutes every non-overlapping leftmost occurrence.", "quantifier": "every string and separator", "why_tests_cant": "unbounded strings", "anchors": ["src/data/string/utility.h"]}
{"id": "C41", "title": "Sparse matrix file round trip", "statement": "Rows written with the matrix writer are read back equal and in order, and transposing twice gives the original entries.", "quantifier": "every matrix", "why_tests_cant": "all shapes, all values", "anchors": ["src/data/sparse_matrix/sparse_matrix.cpp"]}
{"id": "C42", "title": "Configuration files parse to the written settings", "statement": "Parsing the text of any set of sections and settings yields for every (section,key) its last value; comments and blank lines are ignored; a malformed line is reported with its line number.", "quantifier": "every well-formed configuration and every malformed line position", "why_tests_cant": "unbounded files", "anchors": ["src/data/config_file.cpp"]}
{"id": "C43", "title": "Rational arithmetic is exact and normalised", "statement": "ratio operations compute the exact rational result, always in lowest terms with positive denominator; comparison agrees with the rationals.", "quantifier": "every pair of ratios (absent overflow)", "why_tests_cant": "algebraic law over all integers", "anchors": ["src/math/ratio.h"]}
{"id": "C44", "title": "FFT inverts", "statement": "ifft(fft(x)) == x and fft computes the discrete Fourier sum.", "quantifier": "every power-of-two length and every vector over a commutative ring with a principal root of unity", "why_tests_cant": "all sizes and inputs", "anchors": ["src/math/fft.h"]}
{"id": "C45", "title": "Random helpers stay in range", "statement": "next_int(n) lies in [0,n), next_int(a,b) in [a,b), sampling without replacement returns k distinct indices below n, for any behaviour of the underlying generator.", "quantifier": "every generator output sequence and all arguments in the documented range", "why_tests_cant": "probabilistic tests only sample generator outputs", "anchors": ["src/math/random.h"]}
{"id": "C46", "title": "Mersenne Twister follows the MT19937 recurrence", "statement": "The k-th call of next() returns the tempered k-th term of the MT19937 recurrence for the seed, for every k.", "quantifier": "every seed and every k", "why_tests_cant": "unbounded number of calls; block regeneration at every 624 draws", "anchors": ["src/math/random/mersenne_twister.cpp"]}
{"id": "C47", "title": "Endian conversion", "statement": "to_big/to_little/from_big/from_little are mutual inverses and reverse() reverses the byte order, for every value.", "quantifier": "every 8/16/32/64-bit value", "why_tests_cant": "2^64 values", "anchors": ["src/system/endian_util.h", "src/system/endian_util.cpp"]}
{"id": "C48", "title": "Clock time arithmetic", "statement": "clock_time + and - compute exact microsecond sums/differences with 0 <= usec < 10^6, + and - undo each other, and < is the order on instants.", "quantifier": "every pair of clock times", "why_tests_cant": "all carries/borrows", "anchors": ["src/system/time_util.h"]}
{"id": "C49", "title": "Mutexes exclude and recursion is counted", "statement": "For every schedule at most one thread holds a mutex; a recursive mutex is released exactly by the matching number of unlocks by its holder.", "quantifier": "every number of threads and every schedule", "why_tests_cant": "interleavings", "anchors": ["src/concurrent/mutex.cpp"]}
{"id": "C50", "title": "Condition wait restores the lock exactly", "statement": "Waiting on a condition releases the mutex completely and returns with the same thread holding it at the same recursion depth.", "quantifier": "every schedule and recursion depth", "why_tests_cant": "interleavings", "anchors": ["src/concurrent/condition.cpp"]}
{"id": "C51", "title": "pcbuf is a linearizable bounded FIFO", "statement": "For every schedule of pushes and pops: never more than capacity elements, elements come out in the order they went in, none lost or duplicated, and no blocked thread is left asleep when its operation is enabled (no lost wake-up).", "quantifier": "every number of producers/consumers, every capacity and schedule", "why_tests_cant": "interleavings", "anchors": ["src/concurrent/pcbuf.h"]}
{"id": "C52", "title": "mvar is a linearizable one-place buffer", "statement": "take/put/read/swap/try_* behave as atomic operations on an optional value for every schedule, and no wake-up is lost.", "quantifier": "every schedule", "why_tests_cant": "interleavings", "anchors": ["src/concurrent/mvar.h"]}
{"id": "C53", "title": "chan broadcasts every write in one order", "statement": "Each reader sees, in order, exactly the messages written after its creation; duplicated channels see the same order.", "quantifier": "every schedule of writes, reads, dups", "why_tests_cant": "interleavings", "anchors": ["src/concurrent/chan.h"]}
{"id": "C54", "title": "qsem never over-commits", "statement": "The quantity handed out by wait(q) minus that returned by signal(q) never exceeds the initial quantity.", "quantifier": "every schedule and every q", "why_tests_cant": "interleavings and the q>1 case", "anchors": ["src/concurrent/qsem.h"]}
{"id": "C55", "title": "rw_mutex excludes writers and reports acquisition truthfully", "statement": "A lock call returns true iff the lock was acquired; readers and writers exclude each other and a scoped lock releases exactly what it acquired.", "quantifier": "every schedule and timeout argument", "why_tests_cant": "interleavings", "anchors": ["src/concurrent/rwmutex.cpp", "src/concurrent/rwmutex.h"]}
{"id": "C56", "title": "The RPC server reaches STOPPED exactly when all workers have left", "statement": "is_stopped() is true only after every worker has exited its loop and every thread blocked in wait_until_stopped() is then released.", "quantifier": "every number of workers/waiters and every schedule", "why_tests_cant": "interleavings", "anchors": ["src/network/rpc/base.cpp: rpc_server::stop, wait_until_stopped, process"]}
{"id": "C57", "title": "RPC calls return what the remote function returns", "statement": "For a registered function, a call with matching version delivers exactly the arguments and returns exactly the result; unknown names and version mismatches raise the documented exceptions and leave the server serving.", "quantifier": "every function, argument, result and registered set", "why_tests_cant": "protocol over all payloads", "anchors": ["src/network/rpc/base.cpp: rpc_server::process", "src/network/rpc/caller.h", "src/network/rpc/invoker.h"]}
{"id": "C58", "title": "mprpc writes are complete and replies are matched by id", "statement": "object_stream::write transfers every byte once and in order under any pattern of short writes/EINTR/EAGAIN or reports failure; join(id) returns the response with that id and no reply is dropped for another caller.", "quantifier": "every syscall outcome sequence, every reply order", "why_tests_cant": "schedules", "anchors": ["src/network/mprpc/object_stream.cpp", "src/network/mprpc/rpc_stream.cpp"]}
{"id": "C59", "title": "The DNS cache is bounded and expires", "statement": "The cache never holds more than max_size entries, returns only answers the resolver gave for that key, never returns an answer older than expire_second, and its bookkeeping stays consistent under concurrent use.", "quantifier": "every history and schedule", "why_tests_cant": "history property", "anchors": ["src/network/dns.cpp: cached_dns_resolver"]}
{"id": "C60", "title": "Database value conversion and arity", "statement": "from_sql(to_sql(v)) == v; out-of-range integers raise; execute with k arguments passes exactly k values and fetch_row with k targets accepts exactly rows of k columns, for k up to 10.", "quantifier": "every value and every k", "why_tests_cant": "arity family, all 64-bit integers", "anchors": ["src/database/type.h", "src/database/statement.h"]}
{"id": "C61", "title": "ipv4 addresses round-trip through text", "statement": "ipv4_address(a.to_string()) == a, and out-of-range or malformed text gives the 'none' address.", "quantifier": "all 2^32 addresses and all strings", "why_tests_cant": "2^32 values", "anchors": ["src/network/ipv4.h"]}
{"id": "C62", "title": "any is type-safe and has value semantics", "statement": "any_cast<T> returns the stored value iff the stored type is T and throws otherwise; copies are independent; swap exchanges.", "quantifier": "every history of assignments, copies, swaps over any set of types", "why_tests_cant": "history property", "anchors": ["src/lang/any.h"]}
{"id": "C63", "title": "lexical_cast round-trips integers", "statement": "lexical_cast<T>(lexical_cast<string>(n)) == n for every n of an integral type; text whose leading token is not in range throws.", "quantifier": "every 64-bit integer", "why_tests_cant": "2^64 values", "anchors": ["src/lang/cast.h"]}
{"id": "C64", "title": "Width conversion of kana and Latin letters", "statement": "hankaku_to_zenkaku never fails and leaves no half-width katakana; a half-width voiced or semi-voiced mark composes with the character before it exactly as in Unicode; basic_latin_to_zenkaku_latin and zenkaku_latin_to_basic_latin undo each other.", "quantifier": "every sequence of code points", "why_tests_cant": "the result depends on the character before each mark; table-driven code with unchecked indices over all sequences", "anchors": ["src/data/string/ustring.cpp: hankaku_to_zenkaku, take_dakuten_tbl, take_handakuten_tbl, zenkaku_latin_to_basic_latin, basic_latin_to_zenkaku_latin"]}
{"id": "C65", "title": "A decoder attached to a buffer reads only that buffer", "statement": "Decoding, from a buffer passed to attach(buffer), the codes that the encoder put there reads no memory outside the buffer.", "quantifier": "every sequence of codes", "why_tests_cant": "an out-of-bounds read usually goes unnoticed", "anchors": ["src/data/code/code.cpp: decoder::attach, word_with_length, gamma"]}
{"id": "C66", "title": "Reading back any intern table archive is safe", "statement": "Deserialising an intern table from arbitrary archive contents either fails or gives a table whose two directions are inverse, without invalid memory accesses.", "quantifier": "every archive content", "why_tests_cant": "hostile inputs", "anchors": ["src/data/intern.h: intern::serialize"]}
{"id": "C67", "title": "LIS works for every integer element type", "statement": "longest_increasing_subsequence returns the length of the longest strictly increasing subsequence for element types wider than int too.", "quantifier": "every sequence of 64-bit integers", "why_tests_cant": "the failing values exceed INT_MAX", "anchors": ["src/data/string/algorithm.h: longest_increasing_subsequence"]}
{"id": "C68", "title": "The JSON parser reads every RFC 8259 text", "statement": "Every text of the RFC 8259 grammar, with any white space, escapes and nesting, is accepted and read as the value it denotes (numbers correctly rounded, surrogate pairs combined, later duplicate members win).", "quantifier": "every JSON text and what may follow it", "why_tests_cant": "The grammar is infinite and recursive; tests sample it.", "anchors": ["src/text/json/parser.cpp: parse_impl, parse_object, parse_array, parse_string_prim, parse_number", "src/text/json/parser.h"]}
{"id": "C69", "title": "The JSON parser is safe on arbitrary bytes", "statement": "On any byte stream below 2^28 bytes the parser ends with a value, a parse_error or an end_of_data: it stays in its string buffer, never underflows its value stacks and never loops.", "quantifier": "every byte stream, and either answer of the UTF-8 reader for malformed bytes", "why_tests_cant": "The buffer grows by doubling while characters of up to four bytes are written; an overflow needs a rare alignment of lengths.", "anchors": ["src/text/json/parser.cpp: parse_string_prim, json_builder", "src/text/json/parser.h: incr, peek, match"]}
{"id": "C70", "title": "JSON equality ignores only member order", "statement": "operator== on JSON values without floats holds exactly when the values are equal up to the order of object members, at every depth.", "quantifier": "every pair of JSON values", "why_tests_cant": "Equality of nested unordered containers has too many shapes to test.", "anchors": ["src/text/json/base.h: operator=="]}
{"id": "C71", "title": "Casting JSON with a default never throws", "statement": "from_json_with_default always yields a value of the type: parts of another JSON kind leave the default untouched, and where from_json succeeds on an empty default both agree.", "quantifier": "every supported nested type, JSON value and default", "why_tests_cant": "The type universe is infinite; reading an uninitialised default goes unnoticed in a test.", "anchors": ["src/text/json/cast.h: json_cast_with_default, from_json_with_default"]}
{"id": "C72", "title": "A stream of JSON values is read one by one", "statement": "One parser reads the values of a white-space separated stream one after the other and then reports end_of_data; operator>> leaves the rest of the stream in place.", "quantifier": "every stream of JSON texts", "why_tests_cant": "Which character is read ahead depends on the kind of the last value.", "anchors": ["src/text/json/parser.cpp: parse, parse_stream", "src/text/json/parser.h: operator>>"]}
{"id": "C73", "title": "Multipart forms parse to their parts", "statement": "Parsing the multipart/form-data text of a list of fields and files yields for each name its values in order and for each file name the content, for every boundary that does not occur in the parts; every text is parsed or refused in finitely many steps.", "quantifier": "every list of fields and files, every boundary, every text", "why_tests_cant": "all contents, including look-alikes of the boundary", "anchors": ["src/network/cgi/base.cpp: parse_multipart_input, extract_header, extract_attr"]}
{"id": "C74", "title": "Calendar times stand for their clock time", "statement": "clock_time(calendar_time(c)) == c, and calendar_time built from components has these components, for every C library whose mktime undoes localtime_r.", "quantifier": "every clock time, every time zone", "why_tests_cant": "all instants and zones", "anchors": ["src/system/time_util.cpp: clock_time::clock_time, calendar_time::calendar_time"]}
{"id": "C75", "title": "mprpc calls return what the remote function returns", "statement": "For a registered function, a call whose arguments have its types delivers exactly the arguments and returns exactly the result; an unknown name raises method_not_found with that name, a wrong argument type rpc_type_error, an exception of the function rpc_error with its text; the server keeps serving.", "quantifier": "every function, argument list, result, registered set and every way the system calls cut the bytes", "why_tests_cant": "protocol over all payloads and all short reads and writes", "anchors": ["src/network/mprpc/rpc_server.cpp: rpc_server::process, process_request", "src/network/mprpc/invoker.h", "src/network/mprpc/caller.h", "src/network/mprpc/argument.h"]}
{"id": "C76", "title": "PostgreSQL parameters are numbered", "statement": "A query whose parameters are written ? is given to the server with the parameters $1, $2, ... in order and everything else unchanged, string constants included.", "quantifier": "every query made of text, string constants and parameters", "why_tests_cant": "all queries, including constants that look like parameters", "anchors": ["src/database/postgresql/statement.cpp: convert_query"]}
{"id": "C77", "title": "PostgreSQL values come back unchanged", "statement": "A value bound as a parameter, stored in a column of its type and fetched again is the same value: booleans, integers, strings, floats, timestamps, NULL.", "quantifier": "every value and column type", "why_tests_cant": "values spread over all digits, bytes and microseconds; rare ones are lost", "anchors": ["src/database/postgresql/value.cpp: str_to_sql, sql_to_str, make_sql_value", "src/database/postgresql/statement.cpp: execute"]}
{"id": "C78", "title": "MySQL parameters reach the server", "statement": "Executing a prepared statement sends every argument as the value it stands for, NULL as NULL; a wrong number of arguments raises.", "quantifier": "every argument list", "why_tests_cant": "NULLs and empty strings look alike in most tests", "anchors": ["src/database/mysql/value.cpp: to_bind, bind_length", "src/database/mysql/statement.cpp: execute"]}
{"id": "C79", "title": "MySQL rows are fetched exactly", "statement": "Fetching returns for every row the values its entries stand for, of every length, and reports the end after the last row; no byte outside the buffers is read.", "quantifier": "every list of columns and rows", "why_tests_cant": "buffers are reused between rows of different lengths; sequences of long, short and NULL entries are unbounded", "anchors": ["src/database/mysql/statement.cpp: fetch_row", "src/database/mysql/value.cpp: from_bind"]}
{"id": "C80", "title": "HTTP messages arrive as sent", "statement": "A request or response that is sent over a connection is received as the same message: method, URI and version, or version, code and reason, the same header, the same body; its body stream ends with the body, and the connection stands exactly behind it. Receiving never leads to undefined behaviour.", "quantifier": "all messages, all segmentations by the kernel, all bytes before and behind the message", "why_tests_cant": "the space of messages times segmentations times what follows on the connection is unbounded", "anchors": ["src/network/http/base.cpp: request::request, request::send", "src/network/http/base.cpp: response::response, response::send", "src/network/iostream.h"]}
{"id": "C81", "title": "Socket streams carry bytes unchanged", "statement": "The stream over a socket delivers the bytes of the peer in order, whatever is written in between, and the bytes put into it reach the kernel in order, unless an operation reports a failure.", "quantifier": "all sequences of reads, puts, writes and syncs, all bytes, all answers of the kernel", "why_tests_cant": "interleavings of reading and writing with partial sends and failures are unbounded", "anchors": ["src/network/iostream.h: basic_socketstreambuf"]}
{"id": "C82", "title": "A CGI program gets the form and the variables of its request", "statement": "The program run by the embedded server is called once with the method, the variables that describe request and server (REQUEST_METHOD, SCRIPT_NAME, QUERY_STRING, REQUEST_URI, CONTENT_TYPE, CONTENT_LENGTH, REMOTE_*, SERVER_*, and HTTP_* for every header field), and the name/value pairs of the form: of the query for GET, of the body for POST, url-encoded or multipart.", "quantifier": "all requests, forms, header fields, segmentations by the kernel, all programs", "why_tests_cant": "requests, forms and segmentations are unbounded", "anchors": ["src/network/cgi/base.cpp: exec", "src/network/cgi/server.cpp: http_process"]}
{"id": "C83", "title": "The client gets what the CGI program answers", "statement": "What the program prints reaches the client as one HTTP response: code and reason from the field Status, 302 for Location, else 200; the other fields; the content type, text/html by default; the length and the page. A request that cannot be given to the program is answered by a page with status 500 that says why.", "quantifier": "all programs, pages, header fields, requests, segmentations by the kernel", "why_tests_cant": "programs and requests are unbounded", "anchors": ["src/network/cgi/base.cpp: exec", "src/network/cgi/server.cpp: gen_resp, http_process"]}
{"id": "C84", "title": "Two-dimensional Fourier transform", "statement": "fft2d of a rectangle with sides that are powers of two computes the Fourier sums over the rectangle, whether it is stored row by row or as a vector of rows, and ifft2d of that is the data times the number of elements. Any other shape is refused with length_error and the data left as it was.", "quantifier": "all commutative rings, roots, data, shapes", "why_tests_cant": "data and shapes are unbounded", "anchors": ["src/math/fft.h: fft2d_wrap, transpose"]}
{"id": "C85", "title": "Vector algebra", "statement": "Addition, subtraction, negation, multiplication and division by a scalar work on the components and obey the laws of a module; the inner product is the sum of the products of the components, symmetric and bilinear; the outer products of two and three dimensions are alternating, bilinear, orthogonal to their arguments and obey Lagrange's and Jacobi's identities; a / b is the projection factor and normalize gives the direction of a with the wanted length.", "quantifier": "all commutative rings (fields for division) as component type, all dimensions, all vectors", "why_tests_cant": "component types and values are unbounded", "anchors": ["src/math/vector.h"]}
{"id": "C86", "title": "Vector order, access and text", "statement": "== is equality and < the dictionary order, a strict total order; a component is found by its index and no other index is accepted; pointers are read and written for exactly the components; what << writes >> reads back, a number that does not fit is stored as the nearest that does and the stream fails, and a text with too few numbers is refused.", "quantifier": "all dimensions, vectors, indices, integral types, texts", "why_tests_cant": "vectors and texts are unbounded", "anchors": ["src/math/vector.h"]}
{"id": "C87", "title": "Mapped files are released exactly once", "statement": "However mmappers are opened, closed, swapped, moved and destroyed, each descriptor and mapping obtained belongs to exactly one object, is released exactly once, and nothing else is released; an open object's bytes can be used; a failed open changes nothing; a closed object is empty.", "quantifier": "all programs with any number of mmappers, all answers of the kernel", "why_tests_cant": "programs and kernel answers are unbounded", "anchors": ["src/system/mmapper.h", "src/system/mmapper.cpp"]}
{"id": "C88", "title": "Threads are joined or detached exactly once", "statement": "However a thread object is started, joined, detached, restarted and destroyed, and whatever the system answers, no thread is joined or detached twice and none is left joinable when the object is gone; each thread calls the function once and frees its copy; start and join succeed exactly when they may and otherwise change nothing.", "quantifier": "all sequences of calls, answers of the system and schedules of the threads", "why_tests_cant": "sequences and schedules are unbounded", "anchors": ["src/concurrent/thread.cpp"]}
{"id": "C89", "title": "sleep asks for the given time", "statement": "thread::sleep asks nanosleep for the given number of seconds to the nanosecond, and not at all for negative numbers and NaN.", "quantifier": "all doubles, all ways to round", "why_tests_cant": "there are 2^64 doubles", "anchors": ["src/concurrent/thread.cpp: thread::sleep"]}
{"id": "C90", "title": "Memory and load of the system", "statement": "get_sysstat reports the load of the last minute (the double nearest to the two-decimal number /proc/loadavg starts with), the total memory in bytes (field MemTotal of /proc/meminfo) and the free memory in bytes (MemFree and Cached), wherever the fields are in the file, and never throws.", "quantifier": "every text of /proc/meminfo made of fields in any order with any blanks, every text of /proc/loadavg; for no-throw every two texts", "why_tests_cant": "the tests run on one machine; large memories need machines of 2 TiB", "anchors": ["src/system/sysstat.cpp: get_sysstat, get_loadavg, get_total_memory, get_free_memory"]}
{"id": "C91", "title": "Pages made with the tag macros", "statement": "A page written with the macros of tags.h (tags nested in any way, attributes set or appended to anywhere in their tag, texts, raw texts, exceptions caught or not) is exactly the forest the program means: each tag has what its block makes as children and its attributes once, in order, with their last value; the builder's stack is balanced even when exceptions pass; a reader of the page finds exactly these tags, attributes and texts; nothing of an earlier page is left.", "quantifier": "every program of tag, attribute, text, raw text, throw and try statements, whatever state an earlier run left", "why_tests_cant": "unboundedly many nestings; exceptions from every point", "anchors": ["src/network/cgi/inserter.cpp: tag_inserter, text_inserter, prim_inserter", "src/network/cgi/xhtml_builder.cpp", "src/network/cgi/xhtml_cgi.cpp: run", "src/network/cgi/tags.h: tag__, attr__, text__, prim__"]}
{"id": "C92", "title": "Type reflection", "statement": "Reflecting any type (numbers, strings, streams, vectors, maps and classes nested in any way) succeeds and gives the tree of the type: a class has the last name it gave itself and its members in the order visited, and what was reflected before stays; traverse calls the function once for every part, a part before its own parts; the printed text of a type determines its tree.", "quantifier": "every type built from the reflectable ones, every tree", "why_tests_cant": "unboundedly many types", "anchors": ["src/data/serialization/reflect.h: type_rep, class_type, reflection, serialize, get_type", "src/data/serialization/vector.h: array_type", "src/data/serialization/map.h: map_type", "src/data/serialization/string.h: string_type", "src/data/serialization/iostream.h: stream_type"]}
{"id": "C93", "title": "JSON archives", "statement": "Values put into a json_oarchive (compact or pretty, escaped or not) come out of a json_iarchive one after the other: each get finds the next value, equal to the one put if the type is the same, and bad_cast if it is another, after which the following values are found all the same; after the last value get reports the end of the data.", "quantifier": "every sequence of values of the supported types, every sequence of types asked for", "why_tests_cant": "unboundedly many sequences of values; the parser reads one character too far after numbers", "anchors": ["src/text/json/serialization.h: json_iarchive, json_oarchive", "src/text/json/cast.h: via_json", "src/text/json/base.h: gen_print"]}
{"id": "C94", "title": "JSON floating numbers", "statement": "A floating number is printed as a JSON number that denotes it rounded to 12 digits; the parser reads that text, anywhere in a stream, as the double nearest to it (or as an integer if it is one); a number that can be written with 12 digits comes back equal.", "quantifier": "every finite double, every context in a stream", "why_tests_cant": "2^64 doubles; rounding in both directions", "anchors": ["src/text/json/base.h: json_float::print", "src/text/json/parser.cpp: parse_number"]}
{"id": "C95", "title": "Sockets close their descriptors exactly once", "statement": "Whatever a program does with stream_socket, server_socket, mprpc::socket and the streams of mprpc: no system call touches a descriptor which the classes do not hold; each descriptor is closed once, at the latest when its object is deleted. connect tries the addresses in order and can be tried again; create succeeds exactly as the calls it makes do.", "quantifier": "all programs, all answers of the kernel, all descriptors opened and closed by the rest of the process in between", "why_tests_cant": "descriptor reuse by other threads, failing and interrupted system calls", "anchors": ["src/network/socket.cpp: stream_socket, server_socket", "src/network/mprpc/socket.cpp", "src/network/mprpc/object_stream.cpp: object_stream", "src/network/mprpc/rpc_client.cpp: get_connection", "src/network/mprpc/rpc_server.cpp: process"]}
{"id": "C96", "title": "Transactions are atomic", "statement": "A transaction block stores all writes that it reported as done if it ends normally, and none if it throws; it does not terminate the program and leaves no transaction open. For PostgreSQL and MySQL.", "quantifier": "all blocks, all servers' answers and lost connections", "why_tests_cant": "connection loss at any request; exceptions from destructors; server-side rejection", "anchors": ["src/database/util.h: committer, transaction", "src/database/postgresql/connection.cpp", "src/database/mysql/connection.cpp"]}
{"id": "C97", "title": "HTTP streams deliver the document", "statement": "Opening an httpstream on a URL connects to its host and port and sends the GET request that RFC 2616 and 2617 require for it; reading delivers the bytes of the response's body, whether its end is marked by its length, by chunks or by the end of the connection, and then the end of file. Other schemes, ports out of range and unreachable hosts are reported by an exception; a truncated body is not taken for a whole one.", "quantifier": "all URLs, all responses, all kernel segmentations, all orders of reading", "why_tests_cant": "segmentation, port ranges, malformed responses, interleaved peeks", "anchors": ["src/network/http/stream.h: basic_httpstreambuf"]}
{"id": "C98", "title": "Generated PHP clients", "statement": "genrpc's PHP output, together with pfi_rpc.php, is a working client of the C++ RPC server: the generated file loads, the constructor connects, and every method call with PHP values that stand for C++ values of the argument types sends exactly the archive of these values, runs the C++ procedure once, and returns the PHP value that stands for what the procedure returned.", "quantifier": "all services whose types are integers of 1, 2, 4 bytes, double, strings, vectors, maps and named classes, nested in any way; all argument values; all sequences of calls; all states and bodies of the C++ procedures", "why_tests_cant": "Tests cover a few signatures; here the generator runs on every signature and the wire format must agree between two languages for every nested type and value, including key conversions of PHP arrays.", "anchors": ["tools/genrpc/gen_php.h:37-227", "tools/genrpc/pfi_rpc.php:1-238", "src/network/rpc/reflect.h:45-215"]}
{"id": "C99", "title": "Starting CGI programs", "statement": "A CGI program runs the same under FastCGI as as a process per request: the streams deliver and take exactly the bytes of the request and the page, and every request is answered. As a server of its own it listens on the port, with the number of threads and the timeout of its command line, refuses numbers out of range with a message, and is a server rather than a CGI exactly if the option says so.", "quantifier": "all requests, programs and program states, all orders of reading, all failures of output calls, all command lines", "why_tests_cant": "orders of peeking and taking, programs that throw, abbreviated, joined and repeated options, numbers that overflow", "anchors": ["src/network/cgi/fcgi.cpp:45-131", "src/network/cgi/cgi.cpp:40-60", "src/network/cgi/server.cpp:53-126", "src/network/cgi/server.cpp:285-316"]}
{"id": "C100", "title": "Starting and stopping the mprpc server", "statement": "join() returns only after every thread of the server has ended, and after stop() it does return; no more threads serve than the last run() asked for; threads take only connections of the server's own port and stop() closes only its own descriptor; a failing run() or serv() leaves the server as it was; no order of the calls is undefined.", "quantifier": "all histories of calls, all schedules of the server's threads and of the callers of stop(), all failures of the system", "why_tests_cant": "races between accept() and close(), reused descriptor numbers, threads that cannot be made, restarting without waiting", "anchors": ["src/network/mprpc/rpc_server.cpp:60-175", "src/network/mprpc/socket.cpp:59-105", "src/concurrent/thread.cpp"]}
{"id": "C101", "title": "PostgreSQL statements and connection strings", "statement": "A prepared statement runs its own query with its own arguments whenever it is executed; fetch_row gives the rows of its latest successful execution in order, each once, and then false, whatever else is done on the connection; connect(host, port, dbname, user, password) connects with exactly these settings.", "quantifier": "all servers, all histories of prepare, execute, fetch_row, run, transactions, broken and restored connections, any number of statements; all settings", "why_tests_cant": "interleavings of several statements, failures, rows that cannot be read, passwords with blanks, quotes or backslashes", "anchors": ["src/database/postgresql/statement.cpp:47-118", "src/database/postgresql/result.cpp:46-92", "src/database/postgresql/connection.cpp:48-141"]}
{"id": "C102", "title": "Generated Haskell clients", "statement": "genrpc's Haskell output, together with PFIRPC.hs, is a working client of the C++ RPC server: the generated module compiles, and every call with Haskell values that stand for C++ values of the argument types sends exactly the archive of these values, runs the C++ procedure once, and returns the Haskell value that stands for what the procedure returned.", "quantifier": "all services; all argument values; all sequences of calls; all states and bodies of the C++ procedures; all versions of the server", "why_tests_cant": "The generator runs on every signature; names must stay apart after capitalisation and prefixing, and the wire formats of two languages must agree for every nested type and value.", "anchors": ["tools/genrpc/gen_hs.h:19-209", "tools/genrpc/PFIRPC.hs:39-159", "src/network/rpc/reflect.h:45-215"]}
{"id": "C103", "title": "genrpc writes the client of a signature in the language asked for, and changes no other files", "statement": "For every documented command line genrpc --LANG OPTION... SIGNATURE and every environment, genrpc compiles the programs made from its templates with exactly these options, writes the client of the services of the signature to the file named like the signature without the suffix of a header (with a large first letter for Haskell), removes its temporary files, changes no other file, and ends with status 0 only if the client is there. Proved for PHP and Haskell when everything goes well, for names in which the suffix occurs only at the end and options that the shell takes as they are and that do not begin with two dashes; that for any command line and any course of events only clients, genrpc's own executables and - for the languages that are not implemented - the file named like an argument without a suffix are touched; that nothing is changed if the status is not 0. Refuted in general: --ruby calc.h deletes the file calc, --ruby calc deletes the signature; the status is 0 after failures; a failed compilation leaves a file; an option like --std=c++11 is taken for the language; the first .h is cut out wherever it is; an option with a blank becomes two; without temporary files, and for Haskell without services, the behaviour is undefined.", "quantifier": "all command lines, names, options, services, directories, and answers of the compiler, the shell and the file system", "why_tests_cant": "Tests run one command line in one directory; the claim is about all of them and about every way in which the tools that are called may fail.", "anchors": ["tools/genrpc/main.cpp:19-140", "tools/genrpc/genrpc_template.cpp:1-90", "tools/genrpc/genrpc_extract_names.cpp:1-39", "tools/genrpc/gen_null.h:11-16", "src/system/file.cpp:45-51"]}
{"id": "C104", "title": "JSON documents: clone() is a deep copy, copies and merges share", "statement": "A program on json variables that assigns, adds, indexes, merges and clones does what it would do if each variable, element and member had a value of its own. Proved for the programs that store only new documents and clones (and clone what merge returns); they all end. Proved for all programs: a clone has the document that was cloned, and keeps it as long as its variable is not used, whatever is done to anything else; after x = y the two variables are one document until one is assigned to; merge leaves its arguments as they are and gives the merge of their documents. Refuted in general: a change through a copy, or below a merged object, changes the other; an array can be added to itself, and then clone() and printing never end; reading a member that is not there adds it.", "quantifier": "all programs over any number of variables, all paths, keys and documents; all depths", "why_tests_cant": "Tests look at a few assignments; sharing shows only in a later change through another variable, and the claim is about all sequences of operations.", "anchors": ["src/text/json/base.h:82-136", "src/text/json/base.h:155-177", "src/text/json/base.h:213-218", "src/text/json/base.h:405-442", "src/text/json/base.h:497-502", "src/text/json/base.h:553-636", "src/text/json/base.h:720-734"]}
{"id": "C105", "title": "JSON parse errors name the place where the text goes wrong", "statement": "A parse_error thrown by json_parser names the line and the column (counted in characters, from 1) of the character at which the text goes wrong: no RFC 8259 text begins with the text up to and including this character, and the error is the same whatever else follows.", "quantifier": "all well-formed UTF-8 texts", "why_tests_cant": "the claim is about all texts and all their continuations", "anchors": ["src/text/json/parser.h:85-151", "src/text/json/parser.cpp:118-449", "src/lang/exception.h:43-83"]}
{"id": "C106", "title": "Threads of the embedded web server", "statement": "Under every schedule of the owner and the threads, each thread of run_server takes one connection after the other and closes it, each CGI object works on one connection at a time, each connection is worked on at most once; run() starts thread_num threads and returns, join() and the destructor return, no request ends the server, and no thread uses a server that was destroyed.", "quantifier": "all numbers of threads, all schedules, all failures of clone, thread start, accept and requests, all sequences of calls of the owner", "why_tests_cant": "schedules and failures cannot be enumerated by tests", "anchors": ["src/network/cgi/server.cpp:127-188", "src/network/cgi/server.cpp:236-283", "src/network/cgi/base.h:46-59", "src/concurrent/thread.cpp:118-184"]}
{"id": "C107", "title": "One object per singleton", "statement": "Whatever threads call singleton<T>::instance() under whatever schedule, at most one T is made, every call that returns gives it, a throwing constructor is passed to the caller and tried again by the next call, every call ends, and a call is good at any time.", "quantifier": "all numbers of threads, all schedules, all outcomes of the constructor", "why_tests_cant": "schedules cannot be enumerated by tests", "anchors": ["src/lang/singleton.h:41-64", "src/concurrent/lock.h:51-98", "src/concurrent/mutex.cpp:71-104"]}
{"id": "C108", "title": "scoped_ptr deletes each object once", "statement": "Every object handed to a scoped_ptr is deleted exactly once, when its scoped_ptr is reset or goes out of scope, wherever swaps have moved it; a scoped_ptr is true exactly when it is not null.", "quantifier": "all sequences of operations on any number of scoped_ptrs", "why_tests_cant": "sequences of operations are unbounded", "anchors": ["src/lang/scoped_ptr.h:41-72", "src/lang/safe_bool.h:50-77"]}
{"id": "C109", "title": "Timeouts handed to the system", "statement": "A timeout in seconds given to a socket, a condition or an rw_mutex reaches the system as a well-formed time that differs from it by microseconds at most; a negative one given to a socket is refused; one that is not zero is not turned into waiting for ever.", "quantifier": "all doubles, all clock readings, all monotone roundings", "why_tests_cant": "doubles cannot be enumerated", "anchors": ["src/network/socket.cpp:327-338", "src/network/socket.cpp:536-543", "src/network/mprpc/socket.cpp:241-252", "src/concurrent/internal.cpp:40-46", "src/concurrent/condition.cpp:141", "src/system/time_util.h:52-54"]}
{"id": "C110", "title": "Connections go to the addresses of the name", "statement": "connect asks the resolver that was set last for the host's addresses, tries them in order with the right bytes and port until one answers, trying again after interruptions, and the socket then tells the address and port of its peer, as does one made by accept.", "quantifier": "all hosts, ports, answers of the system, schedules of setting resolvers", "why_tests_cant": "the answers of the system cannot be enumerated", "anchors": ["src/network/dns.cpp:59-97", "src/network/socket.cpp:91-138", "src/network/socket.cpp:545-564", "src/network/mprpc/socket.cpp:99-139", "src/network/ipv4.h:58-87"]}
{"id": "C111", "title": "Floating numbers through lexical_cast", "statement": "The text lexical_cast makes of a finite double is the number rounded to six digits; a number at the start of a text is read as the nearest double or refused if too large; nothing else is read; a double comes back from its text; integers survive the way to double and back.", "quantifier": "all doubles, all texts, all integers", "why_tests_cant": "doubles and texts cannot be enumerated", "anchors": ["src/lang/cast.h:45-104", "src/database/postgresql/value.cpp:103"]}
{"id": "C112", "title": "Random real numbers", "statement": "random<GEN>::next_double() is k/2^53 with 0 <= k < 2^53, so in [0,1), whatever the generator gives. next_double(a) is documented to be in [0,a): this holds for every finite a above 2^-1022 although the product is rounded, and fails for every smaller positive a, where some generator gives a itself. next_double(a,b) is documented to be in [a,b): for finite a <= b whose difference does not overflow it is in [a,b], but b itself is possible; for larger differences it can be infinite or not a number. next_gaussian() gives its results in pairs, the two made of the same two draws, whatever else is called in between, and takes the logarithm of a number in (0,1] only.", "quantifier": "for all generators and states, all finite doubles a and b, and all sequences of calls", "why_tests_cant": "one generator in 2^53 gives the rounding case, and only for some pairs of bounds", "anchors": ["src/math/random.h:83-118", "src/math/random.h:60-63"]}
{"id": "C113", "title": "Clock times as doubles", "statement": "operator double of a clock_time gives a double from which the microseconds can be told, for every time before 2^33 seconds (the year 2242); so ==, !=, >, <= and >=, which exist for clock times only through this conversion, agree with the instants and with operator<. For all normalised times the doubles do not reverse the order. Later than 2^33 seconds the claim is false: different times have one double, and a < b holds together with a == b. (double)(now - start), as the mprpc streams use it for timeouts, is the time elapsed, but for a clock set back it is at least 2^63 seconds instead of negative.", "quantifier": "for all clock times", "why_tests_cant": "the microseconds are lost only from the year 2242 on, and clocks are not set back during tests", "anchors": ["src/system/time_util.h:52-54", "src/system/time_util.h:96-99", "src/network/mprpc/object_stream.cpp:70-112"]}
{"id": "C114", "title": "Polling a channel", "statement": "chan::size() and chan::empty() tell how many messages have been written to the channel and not been read, at one moment between call and return. This is false of the code for duplicated channels: a write reaches one channel after the other, so a thread can find one channel filled and then another one empty although both existed and nobody reads; no order of the operations explains that. Proved instead for every schedule: there is one order of all operations, as in C53, in which every answer is the number of unread messages, up to the message of one write that has not returned.", "quantifier": "every schedule of writes, reads, dups, polls; any number of threads and channels", "why_tests_cant": "interleavings inside write()", "anchors": ["src/concurrent/chan.h:92-108", "src/concurrent/chan.h:67-72"]}
{"id": "C115", "title": "Single precision and unsigned numbers in JSON", "statement": "A float written to JSON text and read back with json_cast<float> is the same float: twelve digits are enough for 24 bits, and the text is read anywhere in a stream. Zero comes back without its sign. to_json refuses infinity and NaN. json_cast<float> of a JSON number gives the float nearest to the double or integer that the parser found, infinity for doubles too large; it throws exactly on what is no number, and the default is taken exactly then. The float need not be the nearest to the number in the text, which is rounded twice. Unsigned integers below 2^63 are written as themselves; larger ones come out negative.", "quantifier": "all finite floats, all texts around them, all doubles, all integers", "why_tests_cant": "Four billion floats; the twelve digits are enough only because of a bound on relative errors, and double rounding shows up for few texts", "anchors": ["src/text/json/cast.h:119-138", "src/text/json/cast.h:221-255", "src/text/json/base.h:225-279"]}
{"id": "C116", "title": "ustrings through streams", "statement": "operator<< writes the UTF-8 of a ustring; operator>> reads the next word, after any blanks and up to the next blank or the end, and leaves the rest; reading until the stream fails gives exactly the words of what was written; with no word left the ustring is emptied and the stream fails; only a non-empty ustring without blanks comes back.", "quantifier": "all sequences of scalar values, all blanks around them", "why_tests_cant": "texts are unbounded", "anchors": ["src/data/string/ustring.cpp:344-356"]}
{"id": "C117", "title": "Shared and weak pointers", "statement": "An object handed to a shared_ptr is deleted exactly once, at the moment when the last shared_ptr to it goes away, however the pointers are copied, assigned, cast, made from weak_ptrs or by shared_from_this; use_count is the number of shared_ptrs to the object; weak_ptr::lock and the constructor of shared_ptr from a weak_ptr give a further owner while the object is there, and null or bad_weak_ptr when it is not; shared_from_this gives a further owner.", "quantifier": "for all sequences of operations on any number of shared_ptrs and weak_ptrs and objects", "why_tests_cant": "A use after the last release or a second delete appears only for some orders of copies, assignments and releases.", "anchors": ["src/lang/shared_ptr.h:62-133", "src/lang/weak_ptr.h:43-71", "src/lang/enable_shared_from_this.h:41-69"]}
{"id": "C118", "title": "Single precision numbers through lexical_cast", "statement": "A float becomes a text of six digits that denotes it rounded, any decimal text becomes the nearest float or is refused if there is none, numbers of up to six digits survive in both directions, a second trip changes nothing, and a conversion to or from double by lexical_cast keeps the value.", "quantifier": "all floats, all doubles, all texts", "why_tests_cant": "2^32 floats with 2^32 texts; the loss depends on decimal and binary rounding together, and small samples such as 0.5 are exact", "anchors": ["src/lang/cast.h:45-56", "src/lang/cast.h:58-64", "src/lang/cast.h:66-74", "src/lang/cast.h:76-86"]}
{"id": "C119", "title": "Scoped locks are given back exactly once", "statement": "Whatever a program with scoped_lock objects and synchronized blocks does - end, return, throw, also out of lock() - each successful lock() is followed by exactly one unlock() of the same lockable after the block, refused locks are not unlocked, an owned lockable is destroyed exactly once after that, and steps inside a synchronized block are done only while its lock is held.", "quantifier": "every program of nested blocks, tries, returns and exceptions, every behaviour of the lockables", "why_tests_cant": "all ways out of all nestings and all answers of lock()", "anchors": ["src/concurrent/lock.h: scoped_lock, synchronized", "src/concurrent/rwmutex.h: rlock, wlock"]}
{"id": "C120", "title": "A parse error says where it is", "statement": "what() of a parse_error is FILE:LINE:POSITION MESSAGE with the numbers in decimal, and from it the parts can be told; the parts asked for are those given.", "quantifier": "every file name, line, position and message", "why_tests_cant": "all texts, also with colons and NULs in them", "anchors": ["src/lang/exception.h: parse_error"]}
{"id": "C121", "title": "Sparse matrix files hold what was written under their names", "statement": "A program that opens, fills and closes sparse matrices by name with a sparse_matrix_writer and reads them with a sparse_matrix_reader finds under each name exactly the rows last closed there; matrix_transpose stores the transposed matrix under its destination; no other files change; failures are reported.", "quantifier": "for all sequences of operations on one writer and one reader, all names, rows and earlier files, and all failures of the system", "why_tests_cant": "The state is a file system with two objects; which file holds what depends on the whole history, and on failures tests cannot provoke.", "anchors": ["src/data/sparse_matrix/sparse_matrix.cpp:93-140", "src/data/sparse_matrix/sparse_matrix.cpp:194-344", "src/data/sparse_matrix/sparse_matrix.cpp:394-477", "src/data/code/code.cpp:147-160"]}
{"id": "C122", "title": "Statements on a MySQL connection keep to their query, their rows and their connection", "statement": "Over any history of prepare, execute, fetch_row, run, begin, commit, rollback, deletions, ended sessions and failed reconnections on a mysql_connection: the server runs for a statement only the query it was made from; every row given is the next row of the latest execution; execute either sends the query or throws having sent nothing; statements of a replaced connection never run again; every MYSQL handle is closed exactly once; a transaction call that returns normally was sent to the server; and no call follows a null pointer.", "quantifier": "for all servers, conversions, queries, arguments, and histories of calls and failures", "why_tests_cant": "The interesting histories need sessions that break between two particular calls and servers that cannot be reached when the client reconnects, for any interleaving of several statements; a test sees a few of them on a live server.", "anchors": ["src/database/mysql/connection.cpp:45-183", "src/database/mysql/statement.cpp:51-205"]}
{"id": "C123", "title": "Timeouts of an RPC server cost no answers", "statement": "For an rpc_server with a timeout and any history of calls in time, calls of which only some bytes arrive before the timeout, and connections that are quiet for too long: calls in time and calls that have arrived in full give exactly what the function gives, a connection closed for being quiet is replaced unnoticed at the next call, a call that was cut off ends with an error and was not run, and the server goes on.", "quantifier": "for all services, versions, numbers of workers and clients up to it, calls, cut positions, and histories", "why_tests_cant": "A test would have to cut a request at every byte at the moment the server gives up, between calls of several clients; the function that runs although its caller is told of an error only shows at four of these positions.", "anchors": ["src/network/rpc/base.cpp:168-231", "src/network/rpc/base.cpp:269-308", "src/network/rpc/caller.h:66-82", "src/network/rpc/invoker.h:49-73"]}
{"id": "C124", "title": "Objects of libpq are given back exactly once", "statement": "Whatever is called on any number of PostgreSQL connections and statements, and whatever libpq answers (not safe for threads, no memory, not connected, connection lost and restored or not, queries refused), every PGconn and PGresult is used only between being got and being given back, and is given back at most once; those of connections and statements that live are there, also when the connection object is destroyed before its statements; at most one PGconn per living object and one PGresult per living statement are kept, and none when all are gone; connect fails with an exception and leaves nothing behind.", "quantifier": "all sequences of connect, prepare, execute, fetch_row, run, destruction of statements and connections, all answers of libpq, all points where memory runs out", "why_tests_cant": "Needs failures of libpq and of allocation at every point of every order of calls and destructions", "anchors": ["src/database/postgresql/connection.cpp:50-125", "src/database/postgresql/statement.cpp:61-115", "src/database/postgresql/result.cpp:46-92"]}
{"id": "C125", "title": "Options of sockets", "statement": "set_nodelay of an open socket returns true exactly if no call of the system fails, signals notwithstanding, and then Nagle's algorithm is off or on as wanted and no other option has changed; set_timeout sets both timeouts to the wanted time up to a microsecond or, returning false, neither; a server keeps the timeout for its connections exactly if it was set; a listening socket may reuse its address and does not linger; sockets without descriptor refuse.", "quantifier": "all options set before, all sequences of answers of the system (interrupted, failed, done), all timeouts below 2^31 seconds, both socket classes", "why_tests_cant": "Needs failures and signals at each call of setsockopt, and nobody looks at options that were not asked for", "anchors": ["src/network/socket.cpp:320-365", "src/network/socket.cpp:442-500", "src/network/socket.cpp:536-543", "src/network/mprpc/socket.cpp:141-252"]}
{"id": "C126", "title": "An archive read from any bytes leaves a value of its type", "statement": "Reading a value from a binary archive over arbitrary bytes and in any state of the stream neither crashes nor diverges, and leaves in the variable a value of its type: numbers in range, strings of bytes, ordered containers with strictly increasing keys, unordered ones with distinct keys.", "quantifier": "every type of the archives, every previous value of the variable, every byte string, stream good or failed", "why_tests_cant": "arbitrary corrupt input against arbitrarily nested types", "anchors": ["src/data/serialization/base.h", "src/data/serialization/set.h", "src/data/serialization/map.h", "src/data/serialization/unordered_set.h", "src/data/serialization/unordered_map.h", "src/data/serialization/vector.h", "src/data/serialization/string.h"]}
{"id": "C127", "title": "A reply that is cut is never taken for a result", "statement": "If only the first bytes of a reply of an RPC server reach the caller before the connection ends, the call fails with an error; no value is returned, and what is reported is what the server has said.", "quantifier": "every result type and value, every message, every place of the cut", "why_tests_cant": "every prefix of every reply", "anchors": ["src/network/rpc/caller.h", "src/network/rpc/invoker.h", "src/network/rpc/base.cpp"]}
{"id": "C128", "title": "RPC connections whose writes fail send a prefix of the answers and carry out nothing more", "statement": "On one connection of the RPC server, whatever the client sends and however reads and writes fail or time out, the requests carried out are those at the beginning of what was sent, in order; the client receives a prefix of their answers; all of them but the last are answered completely, so nothing is carried out after an answer that did not go out; after a failure nothing more is sent. If the kernel takes what it is given, everything carried out is answered.", "quantifier": "every protocol of requests and answers, every input, every sequence of answers of recv and send, both behaviours of flush on a failed stream", "why_tests_cant": "Where a write fails depends on the buffers of the kernel and on the client's pace; the claim is about every point at which it may.", "anchors": ["src/network/rpc/base.cpp:180-228", "src/network/rpc/invoker.h:49-70", "src/network/iostream.h:99-131", "src/network/socket.cpp:241-281"]}
