# A Rocq model of pficommon

This directory holds a formal model, in Coq 8.16.1, of the logic of
pfi/pficommon (`/repo`, C++), and machine-checked theorems about it.
The code itself is never built or run here. The link between the theorems and
the code is the reading of the source; every definition of a model file cites
the file and lines it models.

## 1. How the development is organised

For every area `X` there are up to four files in `rocq/theories`:

| file          | content |
|---------------|---------|
| `X_Model.v`   | the code, function by function, as total computable Gallina functions; no proofs |
| `X_Spec.v`    | a small independent specification (what the property talks about); does not mention the model's helpers |
| `X_Proof.v`   | lemmas and proofs |
| `X_Props.v`   | only the property theorems (each closed by `exact lemma`), a non-vacuity `Example` beside each, and `Print Assumptions` |

Conventions

* Bytes are integers `0 <= b < 256` in `Z`; a string is a `list Z`. `bytes s`
  says that all elements are bytes. `char` is modelled by its unsigned value
  unless the sign matters (then the model converts explicitly).
* Machine integers are `Z` with the wrap written out (`mod 2^k`) wherever it
  can happen. Where a model leaves out overflow the comment says so.
* Undefined behaviour is a separate outcome (`UB`), never a default value.
  Exceptions, and loops that do not end, are separate outcomes as well.
* Loops are structural recursion or recursion on explicit fuel with a separate
  out-of-fuel outcome that the theorems exclude.
* The environment (kernel, scheduler, clock, random source, DNS) is a
  universally quantified oracle: a list of answers or a step relation.
* A property that is false of the code is kept as it is in `properties.jsonl`;
  the theorem is then named `…_refuted` and gives a concrete witness, and what
  does hold is proved beside it with the exact guard (`…_partial`).

## 2. Plan per property

(The list is in `properties.jsonl`. "RT" = round-trip law, "INV" = invariant
over operation sequences, "REF" = refinement to an abstract specification.)

| id | model | proof |
|----|-------|-------|
| C01-C03 | base64 encode/decode loops over byte lists, exception outcome | RT by induction in steps of three bytes; finite sweep for the alphabet; refutation of strict rejection |
| C04 | uri_encode/uri_decode | RT by induction, finite sweep over bytes |
| C05-C08 | UTF-8 encoder/decoder, check_utf8, sanitize_utf8 with explicit positions | arithmetic on code-point ranges; spec = RFC 3629 grammar |
| C09-C10 | encoder as bit sequence, decoder as bit reader | RT per code, lifted to sequences; refutation for `byte` |
| C11-C13 | archive codec per type constructor (type-indexed universe) | RT by induction on the type; truncation by induction |
| C14 | itr_buf block reader and compress | REF to RFC 1321 padding and compression |
| C15-C20 | JSON printer, parser with look-ahead cell, merge, typed casts | RT by induction on values, fuel = size; refutations for NUL, end-of-stream numbers |
| C21-C22 | CSV field automaton with buffer counter, UB outcome | RT + refutation |
| C23 | html_encode | injectivity via a decoder |
| C24-C25 | URI recursive-descent parser on positions with UB outcome | component recovery; refutation |
| C26-C29 | HTTP header list; wire format; chunked and fixed-length body streams | INV/REF, RT, refutations |
| C30-C31 | stream_socket buffers with kernel oracle | INV over operation lists; refutation |
| C32 | cgi::parse_input | RT |
| C33-C36 | fenwick, intern, lru, optional | REF to plain arrays / maps |
| C37-C40 | Aho-Corasick, KMP, DP algorithms, string utilities | functional correctness against declarative specs |
| C41-C42 | sparse matrix files, config files | RT |
| C43-C48 | ratio, FFT, random helpers, MT19937, endian, clock time | algebra |
| C49-C56 | small-step transition systems with arbitrary numbers of threads | inductive invariants over all schedules |
| C57-C59 | RPC protocol, mprpc stream, DNS cache | REF / INV with oracles |
| C60-C63 | database values, ipv4, any, lexical_cast | RT / refutations |
| C64 | the conversion tables of ustring.cpp, character by character | finite sweeps over the tables lifted to strings |
| C65-C67 | buffers of the bit decoder, intern archives, LIS over other types | witnesses of undefined behaviour |
| C68-C69, C72 | the JSON parser of C15 against an RFC 8259 grammar; streams of values | induction on the grammar; total correctness by fuel bound |
| C70-C71 | JSON equality, casts with defaults | structural induction |
| C73 | multipart forms | RT against composed bodies |
| C74 | calendar time over abstract zone functions | algebra of mktime/localtime |
| C75 | mprpc calls over any codec | composition of C58 |
| C76 | text of a query with numbered parameters = text sent, over a grammar of pieces | constants with ? refute |
| C77 | what the server stores and prints (spec of PostgreSQL texts) composed with what is sent and read | glibc strptime, atoi modelled |
| C78, C79 | buffers holding typed objects; the client library as in its manual | invariant *length <= buffer_length over all rows |
| C80, C81 | messages as text on a connection; streams of one character of look-ahead | text of the first line read back (words, sscanf), C27-C29 for the rest; stream operations as socket calls (C30) |
| C82, C83 | a program as a function of what it is called with; the connection as in C80 | reading leaves the sending side alone; header printed and read back line by line; map lookups |
| C84-C86 | rows and columns through the 1-d transform of C44; vectors over their comparison and map | algebra, refutations where doubles absorb |
| C87, C88, C95 | histories of operations with a log of the system calls | inductive invariants; exactly-once as a property of the log |
| C89, C90 | the argument and text formats of the system calls | arithmetic, parsing |
| C91 | pages as sequences of pieces, tags and texts | output = concatenation; escaping inside |
| C92, C93, C94, C98, C102 | types as an inductive family, text of programs and archives over it | induction on types and values |
| C96 | the object as a client of a database with a commit point | invariant over all histories and failures |
| C97, C99 | a stream or a program over the connection of C80 | composition, command lines against the getopt grammar |
| C101 | histories over an arbitrary server; libpq's lexer for connection strings | invariant relating results to the history; exact characterisation of good passwords |
| C100 | owner, stoppers and threads in steps between their reads of shared data | inductive invariants over all schedules; bounded number of steps for termination |
| C103 | the command line, two template programs and their effects on a directory; the compiler, the shell and mkstemp as oracles | substitution into the template texts as they are installed; frame property over all runs |
| C104 | programs on variables, run on values and on a heap of json_values | every address has one owner (no address twice among variables, elements and members); addresses out of a program's reach |
| C105 | the parser of C68 with lineno and charno; errors keep the state | one record per parser function: it erases to the parser of C68, never un-reads, keeps the counters at the place of the text, and depends only on what it read (two runs with other tails and other fuel) |
| C106 | the owner's calls and process() as a transition system with a log of events; answers and schedule universally quantified | an invariant over the log (what each thread and each CGI object is left with); a measure for each connection; a phase for run(); invariants for join() |
| C107 | threads in instance() as a transition system over one mutex; phases of the static mutex | an invariant over the log; a measure for the call inside |
| C108 | scoped_ptrs over a heap of objects with a log of what is given and deleted | an invariant: held means given and not deleted |
| C109 | doubles as rationals with a monotone rounding; conversions to int, long undefined out of range | rounding errs by one step of a grid of doubles at most |
| C110 | names to addresses over getaddrinfo and ::connect as oracles, inet_addr as documented; the resolver as a shared variable | texts of addresses read back; induction over addresses and answers |
| C111 | binary64 doubles; `%g` and num_get/strtod as documented functions on bytes | the reader as an equation over the pieces of its input; distances in common units of 2^-1074 |
| C112 | binary64 arithmetic on the outputs of an arbitrary generator; sqrt, log, sin and cos arbitrary | bounds on correctly rounded results by nearest neighbours |
| C113 | binary64 conversions, product and sum of time_util.h | errors in units of 2^-1074; monotony of rounding |
| C114 | the polls of chan.h in the transition system of C53 | answers relative to the log of C53; impossibility for all logs |
| C116 | streams as the text left and two flags | the bytes of a character other than a blank are not blanks |
| C117 | control blocks with counters; invariant: each counter is the number of pointer variables and temporaries with that block | the log of each object follows from its counter |
| C118 | binary32 floats (Single_Model); the same text functions as C111, strtof rounding once | the double of a float, so that the units of C111 apply; 10^6 < 2^23 |
| C119 | programs with scoped_locks, exceptions and returns; lock() and unlock() as oracles over the history | induction on the program; counting from any level |
| C125 | setsockopt over the options as Linux keeps them, by number | case analysis of one interrupted call, composed |
| C126 | the archives of C11 over any bytes | comparison of values of one type is a strict order (induction on types); readers keep typing |
| C128 | the server's stream over the socket of C30; requests and answers as a parameter | invariant: what was put is sent, buffered, or the stream has failed |
| C127 | the caller's reads over a reply that ends anywhere | the truncation lemma of C12; the text of a cut string in closed form |
| C124 | counted impls, statements and results; libpq's answers and failures of allocation as parameters | an ownership count that equals taken minus released, kept by every primitive step |
| C123 | C57's world with workers that give up at any byte of a request | case analysis on where a request was cut (truncated archives of C12), C57's invariant with closed connections |
| C122 | MySQL connection as a state machine over any server; sessions end and servers disappear at any point | invariants over histories: statements against the log, handles counted, connections only move on |
| C121 | a file system under one writer and one reader; failures chosen operation by operation | refinement of matrices by name (C41 for the contents); frame property over all runs |
| C120 | the text of parse_error | the first colon not in a numeral ends the name |
| C115 | binary32 numbers through the printer and parser of C94 | floats lie further apart than twelve digits err |

## 3. Trusted base

1. The Coq 8.16.1 kernel, including its virtual machine (`vm_compute` is used
   for finite sweeps and for examples). Nothing else of Coq: no plugins, no
   extraction, no kernel check switched off.
2. Axioms. Every `X_Props.v` ends with `Print Assumptions` for each of its
   theorems; each prints "Closed under the global context". No axiom is used,
   neither of the standard library nor of this development.
3. The reading of the C++ source: that each definition of a model file does
   what the cited lines do. This is not checked by a machine. The simplifications
   are stated in the comment of the definition or at the head of the file; the
   ones that matter are collected below.
4. The specification files `X_Spec.v` (RFC tables, grammars, reference
   structures), which say what is proved.

### 3.1 Assumptions common to all models

* LP64, two's complement, `int` of 32 bits; gcc's definition of signed shifts.
* The C locale for `<cctype>` and for iostream number formatting.
* Memory is never exhausted; allocation fails only where a model says so
  (C36, C62). The call stack is unbounded (recursion depth is not modelled).
* Standard containers behave as the C++ standard says; a map is an association
  list or sorted list. The iteration order of unordered containers is left open
  or not observed.
* Concurrent code runs under sequentially consistent memory; pthread calls
  follow POSIX.
* The kernel, the clock, the scheduler, random generators and remote peers are
  universally quantified. Nothing is assumed about them beyond what the head of
  the model file states (for instance that `::send` does not take more bytes than it got).

### 3.2 What is modelled, and what is not

| source (under /repo/src) | model | not modelled |
|---|---|---|
| data/encoding/base64.cpp | Base64_Model: encoder, decoder | - |
| network/uri.cpp | UriCodec_Model (41-92), Uri_Model (94-894) | - |
| data/string/ustring.{h,cpp} | Utf8_Model, Kana_Model, UStream_Model (344-356) | - |
| data/string/utility.h, algorithm.h, kmp.h, aho_corasick.{h,cpp} | StrUtil_, Algo_, Kmp_, Aho_Model | overflow of `int` node indices and word numbers in Aho_Model (dictionaries of about 2^31 nodes or words) |
| data/code/code.{h,cpp} | Code_Model | - |
| data/serialization/*.h | Archive_Model: the binary archives for all listed types; iostream.h; Reflect_Model: reflect.h and the reflection of vectors, maps, strings and streams | reflection of the other containers (ambiguous overloads, does not compile) |
| data/digest/md5.{h,cpp} | Md5_Model | - |
| data/{fenwick_tree,intern,lru,optional}.h | Fenwick_, Intern_, Lru_, Optional_Model | functional_hash.h; unordered_map.h and unordered_set.h only wrap the library |
| data/sparse_matrix | Sparse_Model (contents), SparseFile_Model (files, failures to open and write, transposing by name) | names with NUL; two writers on one file |
| data/config_file.{h,cpp} | Config_Model (a read that fails: as in libstdc++, badbit and the unfinished line lost) | running out of memory |
| text/json/*.{h,cpp} | Json_, JsonCast_, Single_Model (float, unsigned), JsonArchive_, JsonRef_Model (sharing), JsonPos_Model (lines and columns); `strtod` and `%.12g` as documented in Double_Model | json made from null pointers; merge_with functions with effects; the messages of errors |
| text/csv.{h,cpp} | Csv_Model for iterators into a string | other iterator types |
| text/xhtml.{h,cpp} | Xhtml_Model | - |
| network/socket.cpp | Socket_Model (71-427): the data; Fd_Model: descriptors of stream_socket and server_socket; Timeout_Model: timeouts (327-338); SockOpt_Model: options (320-365, 452-478, 536-543); Connect_Model: names and addresses (91-138, 549-561) | options inherited by accepted sockets |
| network/http/base.cpp, iostream.h, stream.h | Http_Model (44-391): headers and body streams; HttpMsg_Model (402-607): requests and responses, the stream on a socket; HttpStream_Model: httpstream | the messages of errors |
| network/cgi | Cgi_Model (base.cpp 138-282), CgiServer_Model (base.cpp 47-136, util.cpp 42-51, server.cpp 190-282), Page_Model (xhtml_builder.cpp, inserter.cpp, xhtml_cgi.cpp, tags.h), CgiStart_Model (fcgi.cpp, cgi.cpp, server.cpp 53-126, 285-316; FCGX_* and GNU getopt_long by their documentation), CgiThreads_Model (server.cpp 127-188, 236-283) | - |
| network/dns.cpp | Dns_Model (99-229), Connect_Model (59-97) | - |
| network/ipv4.{h,cpp} | Ipv4_Model over `sscanf`/`sprintf` as documented | - |
| network/rpc/{base.cpp,caller.h,invoker.h} | Rpc_Model, RpcStop_Model, RpcTime_Model (timeouts of the server's reads), RpcCut_Model (the caller and replies that are cut), RpcWrite_Model (the server and writes that fail); Php_Model: reflect.h | functions that throw other exceptions than rpc_error |
| ../tools/genrpc/{gen_php.h,pfi_rpc.php} | Php_Model: the generated program as PHP 5 on a 64-bit machine runs it | the layout of the generated text; conversions between PHP types; timeouts |
| ../tools/genrpc/{gen_hs.h,PFIRPC.hs} | Hs_Model: the generated module as a Haskell compiler accepts it (names, instances) and as it runs on a 64-bit machine | the layout of the generated text; laziness (a value that fails when looked at counts as a failure at once); names with bytes from 128 on; classes that differ under one name; what else the module's importer knows is the parameter `taken` |
| ../tools/genrpc/{main.cpp,genrpc_template.cpp,genrpc_extract_names.cpp,gen_null.h}, system/file.cpp | Genrpc_Model: command line, filling of the templates, temporary files, what the compiled template does to the directory | messages on cout and cerr; what g++ makes of the signature (oracle); get_file_size; trigraphs in names |
| network/mprpc | Mprpc_Model: object_stream, rpc_stream, server and caller; Fd_Model: socket.cpp and the descriptors; MpServer_Model: create, serv, run, stop, join, the threads and the listening descriptor, in steps between which anything else may happen | data races on serv_running and the descriptor as such (every read sees the latest write); msgpack-c is described by its format |
| concurrent/* | Mutex_, Monitor_, Pcbuf_, Mvar_, Chan_, Qsem_, RwMutex_, Thread_, Timeout_, ScopedLock_Model | thread ids |
| lang/{any,cast,exception,singleton,scoped_ptr,safe_bool,shared_ptr,weak_ptr,enable_shared_from_this}.h | Any_Model, Cast_Model (integral types), LexFloat_Model (double), LexSingle_Model (float), ParseError_Model, Singleton_Model, Scoped_Model, Shared_Model (control blocks as in libstdc++; one thread; no deleters) | the other headers, which wrap the standard library; lexical_cast of long double |
| math/{fft,ratio,random,vector}.h, random/mersenne_twister | Fft_Model (44-90, 167-177), Fft2_Model (92-163), Ratio_, Random_, RandReal_, Mt_, Vector_, VecFloat_Model (text of vectors of double and char), VecSingle_Model (of float) | the values of sqrt, log, sin and cos in Gaussian numbers; text of vectors of long double |
| system/{endian_util,time_util,mmapper,sysstat} | Endian_, Clock_, ClockReal_, Mmapper_, Sysstat_Model | file, syscall, barrier; sysstat on other systems than Linux; the contents of mapped files |
| database/{type,statement,util}.h | Db_Model; Trans_Model: committer over both connections, and what servers do with transactions | - |
| database/postgresql/{value,statement,connection}.cpp | Pg_Model, PgFloat_Model; Trans_Model: connection.cpp 91-121; PgConn_Model: statements, results and connection strings over any server; PgHandle_Model: the handles of libpq, opening of connections | - |
| database/mysql/{value,statement,connection}.cpp | Mysql_Model; Trans_Model: connection.cpp 63-174; MyConn_Model: several statements, results on the way, sessions that end, handles | options of mysql_real_connect; failures of mysql_init, mysql_stmt_init and mysql_stmt_result_metadata for want of memory |

The note of each claim in `MANIFEST.json` says which part of a property is
proved, which is false of the code (`…_refuted`, with a witness), and which
guard the positive theorem has.
