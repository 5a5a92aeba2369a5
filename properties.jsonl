{"id": "C01", "title": "Base-N codec round trip", "statement": "For each of the six shipped encodings (base64, base64-nopad, base64-uri, base32, base32-hex, base16), decoding the text zt_base_encode produces for a byte string returns 0 and yields exactly that byte string, with *out_bytes equal to its length.", "quantifier": "every byte string of any length, every shipped encoding definition", "why_tests_cant": "inputs are unbounded byte strings; the padding/tail arithmetic depends on length modulo the group size and on every bit of the last group", "anchors": ["src/libzt/zt_base.c: zt_base_encode, zt_base_decode, _base64_encode, _base32_encode, _base16_encode and decoders", "src/libzt/zt_base.h"]}
{"id": "C02", "title": "Base-N encoder output: announced size, alphabet and padding", "statement": "zt_base_encode writes exactly the number of characters it announces in *out_bytes (so a caller buffer of that size is never overrun), every character is a symbol of the alphabet or '=' padding, and the sequence of symbols is the big-endian bit string of the input cut into digits as RFC 4648 prescribes.", "quantifier": "every byte string, every shipped encoding definition", "why_tests_cant": "a buffer overrun or wrong tail digit appears only for particular lengths and tail bits", "anchors": ["src/libzt/zt_base.c: zt_base_encode, encode helpers"]}
{"id": "C03", "title": "Base-N decoder: never overruns, rejects foreign characters", "statement": "For an arbitrary (also malformed) input text zt_base_decode never writes more bytes than the output size it computes for that input (the size it requires of the caller's buffer or allocates itself), and a character that is neither in the alphabet nor an ignored character makes it return an error.", "quantifier": "every input text of any length over all 256 byte values, every shipped encoding", "why_tests_cant": "memory safety against hostile input over an unbounded input space", "anchors": ["src/libzt/zt_base.c: zt_base_decode, _base64_decode, _base32_decode, _base16_decode, dictionaries"]}
{"id": "C04", "title": "Checked integer arithmetic is exact or aborts", "statement": "zt_<type>_add/sub/mul/div return the mathematically exact result whenever that result is representable in the type, and abort whenever it is not; they never return a wrapped value and never execute a trapping division.", "quantifier": "every pair of operands of every fixed width signed and unsigned type", "why_tests_cant": "the operand space is 2^128 and the guard conditions are case splits on sign and limit", "anchors": ["src/libzt/zt_int.h: UINT/INT add, sub, mul, div macros"]}
{"id": "C05", "title": "Time arithmetic is normalised and exact", "statement": "zt_add_time/zt_sub_time/zt_diff_time compute the exact sum/difference in microseconds of the given time values and keep microseconds in [0,10^6); zt_cmp_time orders times exactly as their total microseconds.", "quantifier": "every pair of normalised struct timeval values", "why_tests_cant": "carries and borrows depend on all operand values", "anchors": ["src/libzt/zt_time.c"]}
{"id": "C06", "title": "Hash functions are FNV-1a and compose incrementally", "statement": "zt_hash32/64_buff compute FNV-1a of the bytes with the given seed (0 meaning the offset basis), zt_hash*_cstr equals the buffer version of the string's bytes, hashing a concatenation equals hashing the second part seeded with the hash of the first (unless that is 0), and the folding macros yield a value inside the requested bit width.", "quantifier": "every byte string, every seed, every fold width", "why_tests_cant": "unbounded strings, arbitrary seeds", "anchors": ["src/libzt/zt_hash.c", "src/libzt/zt_hash.h"]}
{"id": "C07", "title": "Hexadecimal conversion round trip", "statement": "zt_binary_to_hex followed by zt_hex_to_binary on its output reproduces the bytes for every buffer, with the byte counts announced; on malformed hex text the conversion reports failure; neither function touches memory outside the buffers it is given.", "quantifier": "every byte string and every hex text", "why_tests_cant": "unbounded input; boundary access only for odd lengths", "anchors": ["src/libzt/zt_cstr.c: zt_binary_to_hex, zt_hex_to_binary"]}
{"id": "C08", "title": "Integer to decimal text", "statement": "zt_cstr_itoa writes the decimal representation of the number (with '-' for negatives) followed by NUL at the given offset, zt_cstr_int_display_len equals the number of characters of that representation, and the buffer bound passed by the caller is respected.", "quantifier": "every int value, every offset and buffer size", "why_tests_cant": "2^32 values times all buffer geometries", "anchors": ["src/libzt/zt_cstr.c: zt_cstr_itoa, zt_cstr_int_display_len"]}
{"id": "C09", "title": "Substring search finds the first / last occurrence", "statement": "For a non-empty pattern zt_cstr_find returns the position of the first occurrence (zt_cstr_rfind: last occurrence) of the pattern inside the selected slice and -1 exactly when there is none; an empty pattern is reported as not found.", "quantifier": "every string, pattern and slice bounds", "why_tests_cant": "unbounded strings, overlapping partial matches", "anchors": ["src/libzt/zt_cstr.c: zt_cstr_find, zt_cstr_rfind"]}
{"id": "C10", "title": "Character searches and spans", "statement": "zt_cstr_any/zt_cstr_rany/zt_cstr_chr/zt_cstr_rchr/zt_cstr_upto/rupto and span helpers report the position of the first/last character of the slice that is (not) in the given set, and a distinguishable not-found value otherwise.", "quantifier": "every string, set and slice bounds", "why_tests_cant": "unbounded strings; not-found encoding collides only for particular data", "anchors": ["src/libzt/zt_cstr.c"]}
{"id": "C11", "title": "String slice operations", "statement": "With index i,j (negative counting from the end) zt_cstr_sub, zt_cstr_dup, zt_cstr_reverse, zt_cstr_map and zt_cstr_cat build exactly the string obtained by the corresponding list operation on the selected slice.", "quantifier": "every string, index pair, map table", "why_tests_cant": "unbounded strings and index values", "anchors": ["src/libzt/zt_cstr.c"]}
{"id": "C12", "title": "String comparison is a total order on slices", "statement": "zt_cstr_cmp returns 0 exactly when the two selected slices are equal and otherwise has the sign of the lexicographic comparison.", "quantifier": "every pair of strings and slice bounds", "why_tests_cant": "unbounded strings", "anchors": ["src/libzt/zt_cstr.c: zt_cstr_cmp"]}
{"id": "C13", "title": "Strip, chomp, basename, dirname, path append", "statement": "chomp/strip remove exactly the trailing/surrounding characters of the given class; dirname/basename return the directory part and the last component; path_append joins with exactly one separator.", "quantifier": "every string", "why_tests_cant": "unbounded strings; boundary cases such as single characters and separators at either end", "anchors": ["src/libzt/zt_cstr.c"]}
{"id": "C14", "title": "Tokenising", "statement": "zt_cstr_split yields exactly the maximal non-delimiter runs, in order; zt_cstr_cut-style iteration visits every field; nothing is lost or duplicated.", "quantifier": "every string and delimiter set", "why_tests_cant": "unbounded strings", "anchors": ["src/libzt/zt_cstr.c: zt_cstr_split, zt_cstr_split_free, zt_cstr_tok, zt_cstr_cut_tok"]}
{"id": "C15", "title": "Pointer array behaves as a sequence", "statement": "After any sequence of zt_ptr_array operations the array contents equal those of an abstract list driven by the same operations (append, concatenate, positional get and move, delete by value, resize), and count never exceeds allocated size.", "quantifier": "every operation sequence from a freshly initialised array", "why_tests_cant": "unbounded histories; growth and shrink thresholds", "anchors": ["src/libzt/zt_ptr_array.c"]}
{"id": "C16", "title": "Byte buffer is a FIFO of bytes", "statement": "zt_buf: after any sequence of add/drain/remove/expand operations the readable content is the concatenation of all added bytes minus the drained prefix, and no operation writes outside the allocation.", "quantifier": "every operation sequence and every chunk size", "why_tests_cant": "unbounded histories; capacity bookkeeping errors surface only after particular sequences", "anchors": ["src/libzt/zt_buf.c"]}
{"id": "C17", "title": "Fixed-element array", "statement": "zt_array: put then get returns the stored element, other elements are unaffected, copy is independent and equal, resize preserves the common prefix and zero-fills the growth; out-of-range access aborts.", "quantifier": "every length, element size, index, content", "why_tests_cant": "unbounded sizes", "anchors": ["src/libzt/zt_array.c"]}
{"id": "C18", "title": "Byte stream typed round trip", "statement": "Values written with zt_bstream_write_* and read back after rewind with the matching zt_bstream_read_* sequence are returned unchanged, for either endianness setting and irrespective of buffer growth; raw bytes laid out are the (flipped) value bytes in order.", "quantifier": "every sequence of typed writes", "why_tests_cant": "unbounded sequences; growth boundaries", "anchors": ["src/libzt/zt_bstream.c"]}
{"id": "C19", "title": "Hash table is a finite map", "statement": "zt_table: get returns the datum of the most recent successful set for an equal key; set of a key already present is refused (unless duplicates are allowed); unrelated keys are unaffected; del removes exactly the given key; the bucket index is always inside the bucket array; the stock hash and comparison callbacks are consistent.", "quantifier": "every operation sequence, key universe, hash function, and table size hint", "why_tests_cant": "collisions and chain positions are data dependent; unbounded histories", "anchors": ["src/libzt/zt_table.c", "src/libzt/zt_table.h"]}
{"id": "C20", "title": "Hash table iteration and copy", "statement": "zt_table_for_each presents every binding exactly once (until the callback asks to stop) and returns the callback's stop value; zt_table_copy produces a table with the same bindings and leaves the source intact.", "quantifier": "every table state and callback", "why_tests_cant": "unbounded states", "anchors": ["src/libzt/zt_table.c: zt_table_for_each, zt_table_copy"]}
{"id": "C21", "title": "Set algebra", "statement": "zt_set insert/remove/is_member/union/intersection/difference/is_subset/is_equal agree with mathematical finite sets.", "quantifier": "every operation history, every pair of sets", "why_tests_cant": "unbounded sets", "anchors": ["src/libzt/zt_set.c"]}
{"id": "C22", "title": "Lisp-style list operations", "statement": "zt_llist_cons/nth/nthtail/reverse/nreverse/nmerge match the list functions of the same name; nodes are neither lost nor duplicated.", "quantifier": "every list", "why_tests_cant": "unbounded lists; in-place pointer surgery", "anchors": ["src/libzt/zt_llist.h"]}
{"id": "C23", "title": "Linked list sort is correct", "statement": "zt_llist_sort returns a permutation of its argument which is ordered by the comparison function (a boolean 'not before' test, as zt_llist_nmerge uses it), for every total preorder, and terminates.", "quantifier": "every list, every comparison function that is a total preorder", "why_tests_cant": "unbounded lists and comparison functions", "anchors": ["src/libzt/zt_llist.c: zt_llist_nmerge, zt_llist_sort"]}
{"id": "C24", "title": "Intrusive circular list integrity", "statement": "zt_elist add/add_tail/remove/join keep the ring well formed (following next and prev visits the same elements in opposite orders) and have the abstract sequence effect; remove undoes insertion.", "quantifier": "every heap and every operation sequence on disjoint rings", "why_tests_cant": "pointer aliasing over arbitrary heaps", "anchors": ["src/libzt/zt_list.h"]}
{"id": "C25", "title": "Stack is LIFO, queue is FIFO", "statement": "Any sequence of push/pop returns elements last-in-first-out; any sequence of enqueue/dequeue returns elements first-in-first-out; empty is reported exactly when no element is left.", "quantifier": "every operation sequence", "why_tests_cant": "unbounded histories", "anchors": ["src/libzt/zt_stack.h", "src/libzt/zt_queue.h", "src/libzt/zt_list.h"]}
{"id": "C26", "title": "Red-black tree invariants and search", "statement": "After any sequence of insert/remove the tree is an ordered red-black tree whose elements are exactly the inserted-and-not-removed ones; find returns the element equal to the key iff present; nfind returns the least element not less; next enumerates in order; height is at most 2*log2(n+1).", "quantifier": "every operation sequence, every total-order comparison", "why_tests_cant": "rebalancing case explosion over unbounded trees", "anchors": ["src/libzt/zt_tree.c", "src/libzt/zt_tree.h"]}
{"id": "C27", "title": "Memory pool never hands out an element twice", "statement": "zt_mem_pool: an element returned by alloc is not returned again before it is released, is a block of the element size inside one page disjoint from every other element, a released element becomes available again; the per-page free counts, the number of pages and of free pages match; pages are given back only when none of their elements is in use; destroy succeeds exactly when nothing is in use.", "quantifier": "every alloc/release/release_free_pages history, every release test, every element size and count whose page size fits in a size_t", "why_tests_cant": "unbounded histories", "anchors": ["src/libzt/zt_mem.c"]}
{"id": "C28", "title": "EZ memory pool releases everything once", "statement": "In every history of creating pools and sub-pools, allocating from them, handing buffers over to them and destroying root pools, destroying a root runs the destructor of every block registered with it or with one of its sub-pools exactly as often as it was registered, frees the pools and their bookkeeping, and touches nothing else: memory always consists of exactly the live pools, their registrations and the user's own blocks. (Destroying a sub-pool before its parent does not have this property, nor has duplicating an empty string: see the refutations.)", "quantifier": "every tree of pools and every allocation history", "why_tests_cant": "unbounded trees", "anchors": ["src/libzt/zt_ez_mempool.c"]}
{"id": "C29", "title": "IPv4 table lookup is network containment", "statement": "zt_ipv4_tbl_search_node and zt_ipv4_tbl_search_from_str find an entry iff the address or network searched for lies inside one of the networks that were added, return a node of such a network, and touch no memory outside the table.", "quantifier": "every set of networks (any order of insertion), every address", "why_tests_cant": "2^32 addresses times unbounded network sets", "anchors": ["src/libzt/zt_ipv4_tbl.c", "src/libzt/zt_ipv4_tbl.h"]}
{"id": "C30", "title": "SHA-1 digest is chunking independent and standard", "statement": "The digest delivered by init/update*/finalize depends only on the concatenation of the update data, not on how it was split, and equals the FIPS 180 SHA-1 of that concatenation.", "quantifier": "every byte string and every way of cutting it into updates", "why_tests_cant": "unbounded messages and splittings", "anchors": ["src/libzt/zt_sha1.c"]}
{"id": "C31", "title": "SHA-1 update does not modify the caller's data", "statement": "zt_sha1_update and zt_sha1_data only read the data they are given and leave it unchanged.", "quantifier": "every message and state", "why_tests_cant": "depends on length and buffer phase", "anchors": ["src/libzt/zt_sha1.c: zt_sha1_update, _transform"]}
{"id": "C32", "title": "Mersenne twister is deterministic and in range", "statement": "zt_random_srandom followed by any number of zt_random_uint32 delivers exactly the MT19937 sequence of the seed (so equal seeds give equal sequences); after zt_random_initstate with any non-empty seed array they deliver the MT19937 sequence of the reference implementation's init_by_array for that array; an unseeded state is seeded by the time; all accesses stay inside the state and outputs are 32-bit.", "quantifier": "every seed, every non-empty seed array, every previous state and every number of draws", "why_tests_cant": "unbounded draws", "anchors": ["src/libzt/zt_random.c"]}
{"id": "C33", "title": "UUID construction and textual round trip", "statement": "zt_uuid4/zt_uuid5 results carry the proper version and variant bits; converting a UUID to text in any of the supported layouts and parsing it back returns the same UUID; equality test is byte equality.", "quantifier": "all 2^128 UUID values, every random/namespace input", "why_tests_cant": "2^128 values", "anchors": ["src/libzt/zt_uuid.c"]}
{"id": "C34", "title": "Bounded formatting", "statement": "zt_fmt_vsprintf-style output never writes beyond the given buffer and is NUL-terminated, the growing variant returns the complete text, and a format with its arguments prints exactly the literal text and, for each directive, the value in positional notation (base 10, 8 or 16), the character, the string cut to its precision, or the C library's floating point text, padded to the width with blanks or zeros as the flags say; %d is exact for every int except INT_MAX and INT_MIN. A registered converter changes its own letter only.", "quantifier": "every format, argument value, width, precision, flag combination, buffer size and callback", "why_tests_cant": "2^32 values and all widths", "anchors": ["src/libzt/zt_format.c: zt_fmt_vformat, zt_fmt_putd, zt_fmt_puts, cvt_*, zt_fmt_vsprintf, zt_fmt_vstrprintf, zt_fmt_register"]}
{"id": "C35", "title": "Configuration get returns what was set", "statement": "A value read from an INI file or stored with zt_cfg_set is returned by zt_cfg_get for that block and variable with the type implied by its text, until it is assigned again; other variables are unaffected; references resolve to their target's value; lookup terminates when each variable is assigned once and none refers to itself; a file made of blank, comment, header and assignment lines yields exactly its assignments in order; the parser always ends.", "quantifier": "every configuration history, every name and value text", "why_tests_cant": "unbounded histories; reference cycles", "anchors": ["src/libzt/zt_cfg/cfg_ini.c", "src/libzt/zt_cfg/cfg_private.c"]}
{"id": "C36", "title": "Option parsing consumes each argument once", "statement": "zt_opt_process_args applies every option of a well-formed command line (grouped flags, --name, --name value, --name=value, -n value, -nvalue) exactly once, in order, with its value, and leaves *argc at the first non-option; on any other argument vector the default error handler ends the program or the call returns at a non-option or the end of argv; argv is never read beyond its end; unknown options, missing values, values that are not C integer constants / booleans, and inconsistent option tables are refused. (Needs: options with a value have a long name. There is no '--' terminator.)", "quantifier": "every argument vector, option table and sequence of options", "why_tests_cant": "unbounded argument vectors", "anchors": ["src/libzt/zt_opts.c"]}
{"id": "C37", "title": "Thread pool: every job is processed exactly once in order", "statement": "Every unit of work put in a threadpool is taken in queue order, by exactly one thread, and handed to its worker exactly once; each output a worker returns enters the output queue exactly once and is delivered at most once; entries are freed at most once and never while in use; no wake-up is lost: once the clients stop calling, the pool comes to rest within a bounded number of steps and then (unless it was shut down) all work is done. Under every interleaving.", "quantifier": "every schedule of producer, worker and output threads", "why_tests_cant": "interleavings cannot be enumerated by tests", "anchors": ["src/libzt/zt_threads.c"]}
{"id": "C38", "title": "Thread pool shutdown: what zt_threadpool_kill guarantees", "statement": "zt_threadpool_kill returns only after every pool thread has exited; a pool thread exits only when its queue is empty; every job put before the shutdown flag was set has been processed by the time kill returns; and, provided no pool thread is caught between its look at the flag and its wait when the broadcast reaches its side, every schedule comes to rest with all threads gone and kill returned. (Without the proviso the shutdown can hang forever, and outputs produced during the shutdown can stay undelivered: both are proved to happen.)", "quantifier": "every schedule", "why_tests_cant": "lost wake-ups need a precise interleaving", "anchors": ["src/libzt/zt_threads.c: zt_threadpool_kill, _zt_threadpool_iput_loop, _zt_threadpool_oput_loop"]}
{"id": "C39", "title": "Log level filtering", "statement": "A message given to a logger is printed iff its level is at least as urgent as the logger's threshold, with exactly the prefix and suffix asked for, provided the host, program and source names contain no '%' (they are made part of the printf format); debug location information applies to exactly the next message; zt_log_logger swaps and returns the previous logger; every logger the library makes for itself is closed exactly once at exit.", "quantifier": "every level/threshold, every call sequence", "why_tests_cant": "unbounded call sequences", "anchors": ["src/libzt/zt_log.c"]}
{"id": "C40", "title": "Exit callbacks run in LIFO order exactly once", "statement": "Callbacks registered with zt_atexit run exactly once at exit, always the last registered of those not yet run, including those registered by running callbacks or by handlers of the program's own; if registrations do not go on for ever, exit terminates and nothing is leaked.", "quantifier": "every registration history", "why_tests_cant": "unbounded histories", "anchors": ["src/libzt/zt_atexit.c"]}
{"id": "C41", "title": "Garbage collector safety and completeness", "statement": "Whatever the object graph, the parameters and the history of calls (registering, protecting, storing pointers with a zt_gc_mark of what is stored, incremental and full collections): nothing reachable from an object the collector still holds is ever released, protected objects are never released, no object is released twice, a full collection keeps exactly what is reachable from the black and grey objects, and two full collections (three, if one was half-way) leave exactly what is reachable from the protected objects. While an incremental collection is half-way, the user may protect only objects without pointers, may not unregister objects, and may not store pointers to objects that have been unprotected (see the refutations).", "quantifier": "every object graph and root set, any interleaving of incremental steps with pointer writes that use the write barrier", "why_tests_cant": "arbitrary object graphs", "anchors": ["src/libzt/zt_gc.c", "src/libzt/zt_gc.h"]}
{"id": "C42", "title": "Base directory search and directory creation", "statement": "zt_find_basedir returns the nearest of the path and its ancestors containing the trigger, NULL if there is none; zt_mkdir with parent creation, when nothing prevents it, succeeds and creates exactly the missing directories of the path, leaving everything else alone; it returns -1 when an intermediate directory cannot be created; without parent creation it makes at most the one directory. Whatever happens, files are untouched and only directories named by the path appear. (That zt_mkdir always returns is false: see the refutations.)", "quantifier": "every path and every file system state", "why_tests_cant": "file system states are unbounded", "anchors": ["src/libzt/zt_path.c: zt_mkdir, zt_path_exists, zt_find_basedir"]}
{"id": "C43", "title": "Unit test runner accounting", "statement": "After running suites, the tests counted equal successes plus failures, every test has run once between its suite's set-up and tear-down, a failing assertion marks exactly its own test as failed, and the exit status is zero iff everything asked for exists and nothing failed.", "quantifier": "every suite of tests with arbitrary outcomes", "why_tests_cant": "unbounded suites", "anchors": ["src/libzt/zt_unit.c", "src/libzt/zt_unit.h"]}
{"id": "C44", "title": "Clamp, bound and bit-flag macros", "statement": "CLAMP returns the value of [low,high] nearest to x (for low<=high), CEILING/FLOOR/MIN/MAX return the respective bound, and ZT_BIT_SET/UNSET/ISSET change or test exactly the bits of the mask and no others.", "quantifier": "every integer argument / every word and mask", "why_tests_cant": "unbounded integer ranges", "anchors": ["src/libzt/zt_macros.h: CLAMP, CEILING, FLOOR, MIN, MAX, ZT_BIT_*"]}
{"id": "C45", "title": "Timing harness runs the function the requested number of times", "statement": "zt_time(n, ...) calls the function under test n times (none for n = 0) and returns its last result.", "quantifier": "every n and every function", "why_tests_cant": "n is unbounded; only side-effect counting shows an off-by-one", "anchors": ["src/libzt/zt_time.c: zt_time"]}
{"id": "C46", "title": "Help text layout keeps all words within the width", "statement": "The option help printer breaks a help text into lines of at most 50 columns that contain exactly the words of the text in order, for every text none of whose words is longer than 49 characters.", "quantifier": "every help text", "why_tests_cant": "unbounded texts; the failing cases depend on where a word meets the margin", "anchors": ["src/libzt/zt_opts.c:_zt_opt_help_stdout_printer"]}
{"id": "C47", "title": "Program name and program path", "statement": "zt_progname(name, 0) reports the given name cut to the buffer size, and with STRIP_DIR the part after the last separator; NULL or an empty name only asks, and before anything was set the answer is \"*UNKNOWN*\". zt_progpath(prog) reports the directory of an absolute program, the directory below the working directory for a relative one (a leading ./ dropped), and for a bare name the first directory of PATH that holds the program, or the working directory if none does; without PATH the directory of the running executable. The answer is always a terminated text.", "quantifier": "every program name, every PATH, every answer of stat, getcwd and readlink, every previous content of the buffer, every PATH_MAX", "why_tests_cant": "PATH, the file system and the working directory are unbounded environment inputs; the failures sit at the last and at empty PATH components", "anchors": ["src/libzt/zt_progname.c: zt_progname, zt_progpath"]}
{"id": "C48", "title": "Becoming a daemon", "statement": "When zt_daemonize(root, mask, options) returns 0, the caller and the intermediate child have exited, and the returning process is in a session it does not lead, with /dev/null as standard input, output and error, no other descriptor below the limit open, in the directory asked for and with the mask asked for. A failing fork, setsid, getrlimit or chdir ends the process it happens in with status 1 and nobody returns from the call.", "quantifier": "every descriptor table, limit on descriptors, directory, mask, and every combination of succeeding and failing system calls", "why_tests_cant": "a test can produce few of the failures, and the limit on descriptors is a property of the machine: with no limit the call hangs", "anchors": ["src/libzt/zt_daemon.c: zt_daemonize"]}
{"id": "C49", "title": "The pid file", "statement": "zt_writepid(name) returns 0 exactly when the file could be created, the whole line was written and the file was closed, and then the file holds the process number in decimal and a newline and nothing else; otherwise it returns -1. Interrupted calls are repeated.", "quantifier": "every process number, every sequence of interrupted, short, failing and succeeding writes and closes", "why_tests_cant": "interruptions and short writes cannot be produced on demand in every order", "anchors": ["src/libzt/zt_daemon.c: zt_writepid"]}
{"id": "C50", "title": "Failed assertions are reported", "statement": "A failed zt_assert, zt_assert_always, zt_assert_nf or zt_assert_return gives the default logger, at level error, the text of the condition, the file name without directories, the line and the function; zt_abort does so at level critical. zt_assert and zt_assert_always and zt_abort then abort, zt_assert_nf goes on, zt_assert_return(V) leaves with the value. A condition that holds has no effect, and NDEBUG disables zt_assert and zt_assert_nf only.", "quantifier": "every condition text (percent signs included), file name, line, function, logger state, options and level of the default logger, or no logger at all", "why_tests_cant": "the condition texts, file names and logger configurations are unbounded, and a test cannot survive the abort", "anchors": ["src/libzt/zt_assert.c: _zt_log_assertion, _zt_log_abort", "src/libzt/zt_assert.h: zt_assert, zt_assert_nf, zt_assert_always, zt_assert_return, zt_assert_returnV, zt_abort"]}
{"id": "C51", "title": "Allocation wrappers never return NULL and give what was asked for", "statement": "zt_malloc, zt_calloc and zt_realloc return a block of num * size bytes (zeroed for calloc, starting with the old contents for realloc), zt_strdup an equal string; when there is no memory, or the string is NULL, the failure is reported with function and line and the program is aborted.", "quantifier": "every element size and count, every old block, every answer of the system allocator", "why_tests_cant": "exhausted memory and sizes near 2^64 cannot be tested; the overflow is a property of all pairs of sizes", "anchors": ["src/libzt/zt_malloc.c: zt_malloc_p, zt_calloc_p, zt_realloc_p, zt_strdup_p", "src/zt.h: zt_malloc, zt_calloc, zt_realloc, zt_strdup"]}
{"id": "C52", "title": "Callback tables of the thread layer", "statement": "zt_threads_set_lock/cond/cntrl_callbacks install a complete table (0), refuse an incomplete one (-1) leaving the old one in force, and NULL empties the table; every zt_threads_* call goes exactly once to the callback of its name and returns its result, and without one does nothing and returns 0/NULL (-1 for detach). zt_threadpool_set_callbacks changes exactly the fields given, and NULL restores the defaults. The pthreads back end maps modes, results and timeouts: a timed wait ends at now + timeout, in normal form.", "quantifier": "every history of table calls, every table (any subset of callbacks missing), every callback result, every current time and timeout", "why_tests_cant": "histories of table changes and combinations of missing callbacks are unbounded; deadlines depend on the clock", "anchors": ["src/libzt/zt_threads.c: zt_threads_set_lock_callbacks, zt_threads_set_cond_callbacks, zt_threads_set_cntrl_callbacks, zt_threadpool_set_callbacks, zt_threadpool_disable_iput_loop, zt_threads_*", "src/libzt/zt_threads/zt_threads_pthreads.c"]}
{"id": "C53", "title": "Signalling pipes, starting and stopping of a thread pool", "statement": "zt_threadpool_init makes empty queues and the pipes asked for; each insertion writes one byte 0 to the pipe of its side, so the unread bytes count the insertions not yet seen; outputs are taken in insertion order; zt_threadpool_start starts the threads of the loops in force; zt_threadpool_kill joins them and writes one byte to each pipe. A failing call leaves nothing behind.", "quantifier": "every sequence of insertions, takes and reads, every number of threads, every failure of pipe, write and thread creation", "why_tests_cant": "failures of pipe() and of thread creation cannot be forced, and full pipes depend on the history", "anchors": ["src/libzt/zt_threads.c: zt_threadpool_init, zt_threadpool_start, zt_threadpool_kill, zt_threadpool_insert_iput, zt_threadpool_insert_oput, zt_threadpool_get_oput, zt_threadpool_*_fd_*"]}
{"id": "C54", "title": "asprintf and vasprintf", "statement": "On success *str points to a new block that holds the whole formatted text and a NUL, and the result is the length of the text, however long it is. On failure (no memory, printf fails, the text has INT_MAX characters or more, or it grew between the two passes) the result is -1, *str is NULL, errno is ENOMEM and no memory stays allocated. No byte outside the blocks is written.", "quantifier": "every text, every failure of malloc, realloc and printf, every change of the text between the two passes, every heap", "why_tests_cant": "allocation failures and texts that change between the passes cannot be produced on demand; lengths are unbounded", "anchors": ["src/libzt/replace/asprintf.c: vasprintf, asprintf"]}
{"id": "C55", "title": "Replacement vsyslog", "statement": "vsyslog sends the formatted message with every %m replaced by the text of the current error, and writes only inside its own buffers.", "quantifier": "every format, error text and arguments", "why_tests_cant": "whether the buffers suffice depends on the length of every format, error text and argument", "anchors": ["src/libzt/replace/vsyslog.c: percent_m, vsyslog"]}
{"id": "C56", "title": "Replacement basename", "statement": "basename returns the part of the path after its last slash, or the whole path if there is no slash.", "quantifier": "every path", "why_tests_cant": "paths are unbounded", "anchors": ["src/libzt/replace/basename.c: basename"]}
{"id": "C57", "title": "Layout of the option help", "statement": "zt_opt_usage prints 'Usage: name help', 'Options:' and then, for each option in table order, its short and long name, its argument and its help text, the text starting in column 30 and wrapped between words so that no line exceeds 80 columns; it returns 0. An option without any name ends the output with -1.", "quantifier": "every table of options, every name, argument and help text", "why_tests_cant": "the layout depends on the lengths of all names and words", "anchors": ["src/libzt/zt_opts.c: zt_opt_usage, zt_opt_help_stdout, _zt_opt_help_stdout_printer", "src/libzt/zt_macros.h: BLANK, INDENT_TO, INDENT_PAD"]}
{"id": "C58", "title": "Error messages and exit status of the option parser", "statement": "An error is reported on stderr as one line naming the code, the system's text for it and the message, and the process exits with the code as status; the help option prints the help on stdout, nothing on stderr, and exits successfully.", "quantifier": "every code, message and option table", "why_tests_cant": "unbounded messages and tables; exit ends the test process", "anchors": ["src/libzt/zt_opts.c: zt_opt_verror_str, zt_opt_verror_default, _zt_opt_error_wrapper, zt_opt_help_stdout"]}
{"id": "C59", "title": "Pools are found by name until they are destroyed", "statement": "zt_mem_pool_get(name) returns the oldest pool with exactly that name that has been created and not destroyed, and NULL when there is none; pools created without a name are called *unknown*. zt_mem_pool_destroy succeeds exactly when no element of the pool is in use and then removes it from the list; otherwise it returns -1 and the pool stays usable and findable. The exit handler is registered once and destroys every pool without elements in use.", "quantifier": "every history of creating, using and destroying pools, every answer of malloc for addresses, every name", "why_tests_cant": "unbounded histories; addresses may be reused; the exit handler runs when the test is over", "anchors": ["src/libzt/zt_mem.c: zt_mem_pool_init, zt_mem_pool_get, zt_mem_pool_destroy, zt_mem_release, zt_mem_strdup"]}
{"id": "C60", "title": "Pool figures, pool groups and heaps", "statement": "The statistics and the display of a pool tell the true numbers of pages, of pages without an element in use, of elements and of free elements. A group has one pool per descriptor, in order; creating it either succeeds or leaves no pool behind; destroying it destroys every pool without elements in use and returns -1 if some pool had to stay. A heap's data area lies inside its block, aligned, with the size asked for.", "quantifier": "every pool state, every list of descriptors, every pattern of allocation failures, every size", "why_tests_cant": "all states of a pool and all points of failure", "anchors": ["src/libzt/zt_mem.c: zt_mem_pool_get_stats, zt_mem_pool_display, zt_mem_pool_group_init, zt_mem_pool_group_destroy, zt_mem_heap_init, zt_mem_heap_destroy, zt_mem_heap_get_data, zt_mem_heap_get_name"]}
{"id": "C61", "title": "The memory of tables", "statement": "A table and each of its nodes live in pool elements of their own, large enough for them, that are in use for nothing else as long as they are part of a table; operations on one table do not touch the memory of another; deleting a key gives back the memory of the key's node and of no other; destroying a table gives back everything the table ever took, so that after the last table is destroyed and the program exits nothing is left.", "quantifier": "every program that creates, fills, empties and destroys any number of tables, every hash and comparison function, every page size", "why_tests_cant": "all histories of several tables, all chain shapes", "anchors": ["src/libzt/zt_table.c: zt_table_init, zt_table_set, zt_table_del, zt_table_destroy", "src/libzt/zt_mem.c: zt_mem_pool_init, zt_mem_pool_get, zt_mem_pool_alloc, zt_mem_pool_release, zt_mem_pool_destroy"]}
{"id": "C62", "title": "Tables in memory, and tables changed while they are iterated over", "statement": "The nodes of a table, linked by pointers and allocated anywhere, always form the buckets of the table: every program gets the answers of the table as a collection of bindings, and no operation reads a released node, runs round a cycle or changes a node of another bucket. zt_table_for_each may be given a callback that uses the table: one that looks sees every binding once; one that adds bindings is still shown every binding that was there at the start and the iteration ends; one that deletes bindings is shown every binding that was not deleted, and no other binding disappears. Copying a table onto itself ends, adds nothing if keys are unique and every binding once more if not.", "quantifier": "every program of insertions, lookups and deletions, every hash and comparison function, every choice of addresses by the allocator, every callback of the given kinds", "why_tests_cant": "all chain shapes, all allocators (including those that reuse a released address at once), all callbacks", "anchors": ["src/libzt/zt_table.c: zt_table_set, zt_table_get, zt_table_del, zt_table_copy, zt_table_for_each"]}
{"id": "C63", "title": "Sets in memory: the same set for several arguments, destroying sets", "statement": "Programs on any number of sets never run into undefined behaviour and always end, whatever sets they name as arguments of zt_set_union, zt_set_intersection, zt_set_difference, zt_set_is_subset and zt_set_is_equal, also when the same set is named twice or three times; every set keeps each member once and an exact length, and only the target of an operation changes. The target then has the members of the union, intersection or difference of what the argument sets had before. Destroying a set calls its destroy function exactly once for every element, and each element is given to a destroy function only once.", "quantifier": "every program, every equality on elements, every allocator, every choice of argument sets", "why_tests_cant": "all histories and all coincidences of arguments; order of iteration depends on hashes", "anchors": ["src/libzt/zt_set.c: zt_set_init, zt_set_insert, zt_set_union, zt_set_intersection, zt_set_difference, zt_set_is_subset, zt_set_is_equal, zt_set_destroy"]}
{"id": "C64", "title": "Memory of arrays and byte streams", "statement": "A program on any number of arrays and byte streams (created empty, from bytes, by copy or by clone, resized, written, read, freed, an array handed to a stream) gives in memory exactly the answers it would give if every array and stream were a value of its own: no array sees another's writes, nothing freed is touched, whatever addresses the allocator returns; and when everything has been freed nothing is left allocated. Without the copy flag the array is the caller's block: reads and writes go to it and freeing the array frees it. Violated: replacing an array's contents, and growing an array or stream whose length was set to 0 or truncated, lose the old data block; freeing an array set up by reference on memory that is not from malloc, or two arrays on one block, or setting a stream's own array again, is undefined.", "quantifier": "all programs over any number of arrays and streams, all element sizes and contents, all allocators", "why_tests_cant": "aliasing, use after free and leaks depend on the whole history and on the addresses the allocator happens to return", "anchors": ["src/libzt/zt_array.c: zt_array_new, zt_array_free, zt_array_set_data, zt_array_with, zt_array_resize, zt_array_copy, zt_array_set_length, zt_array_elem_copy, zt_array_put", "src/libzt/zt_bstream.c: zt_bstream_new, zt_bstream_clone, zt_bstream_free, zt_bstream_truncate, zt_bstream_set_data, zt_bstream_set_array, zt_bstream_read, zt_bstream_write"]}
{"id": "C65", "title": "Address tables in shared pools", "statement": "Any number of address tables can be used side by side, created and destroyed in any order: every search and every addition answers what it would if each table were alone, and nothing that was freed or is too small is written. Since every table takes its rows, nodes and addresses from the oldest pools of three fixed names, this holds exactly as long as no table is larger than an older one; then the number of elements in use in those pools is one node per addition, one row per prefix length used in a table, one address per addition and one per search, and tables that were never used leave nothing when destroyed. Violated: once a network was added to any table, adding one to a table larger than all earlier ones writes past a row, even if the earlier tables were destroyed; every search keeps an address, every unreadable text keeps a node, and destroying a table that was used gives nothing back.", "quantifier": "all programs that create, fill, search and destroy any number of tables of any sizes, all networks, all addresses malloc may return, all page sizes", "why_tests_cant": "the overrun and the leaks depend on which tables existed earlier in the process, in which order and of which sizes", "anchors": ["src/libzt/zt_ipv4_tbl.c: zt_ipv4_tbl_init, zt_ipv4_tbl_destroy, zt_ipv4_addr_frm_str, zt_ipv4_node_str_init, zt_ipv4_tbl_add_node, zt_ipv4_tbl_add_frm_str, zt_ipv4_tbl_search_node, zt_ipv4_tbl_search_from_str", "src/libzt/zt_mem.c: zt_mem_pool_get, zt_mem_pool_destroy, zt_mem_pool_group_init"]}
{"id": "C66", "title": "Memory of configurations", "statement": "Any number of configurations can be loaded, changed, read and closed in any order: every answer is what it would be if each configuration were a value of its own, only blocks that are there are used, nothing is freed twice, and a string handed out by a query reads the same as long as its configuration is open, whatever is stored later, also in its own place. Reading it after the configuration is closed reads freed memory. Violated: closing does not give back everything; exactly the following stays allocated for ever: one block per string value that was replaced, three blocks per refused boolean, and everything stored from a file up to the line at which it fails to parse.", "quantifier": "all programs that load, set, query, look at earlier answers and close, any number of configurations, all file contents, all names and values, all addresses malloc may return", "why_tests_cant": "which strings are still valid and what is left behind depend on the whole history of stores, on references between variables and on where malloc puts blocks", "anchors": ["src/libzt/zt_cfg/cfg_private.c: get_block, add_block, get_variable, add_variable, cfg_insert_bvv, zt_cfg_priv_set, zt_cfg_priv_get, zt_cfg_priv_destructor", "src/libzt/zt_cfg/cfg_ini.c: zt_cfg_ini, parse_cfg, parse_file"]}
{"id": "C67", "title": "Memory and ownership of pointer arrays", "statement": "Any number of pointer arrays can share members: a program that frees a member (by itself, by deleting it from an array with a free callback, or by freeing an array together with its members) only when no array holds it any more gets every answer it would get if an array were a list of members, uses only blocks that are there, frees nothing twice, and what stays allocated is exactly two blocks per open array and the members not freed; when all are freed nothing is left, however often arrays grew. Violated for programs a user would expect to work: after moving a member within an array, that array cannot be freed with its members; after concatenating one array to another, only one of them can; deleting a member that an array with callback holds several times frees it several times.", "quantifier": "all programs that make, fill, delete from, read, rearrange, concatenate and free any number of arrays and members in any order, all addresses malloc may return", "why_tests_cant": "whether a block is freed once depends on the whole history of sharing, on duplicates and on where malloc puts blocks", "anchors": ["src/libzt/zt_ptr_array.c: zt_ptr_array_init, zt_ptr_array_resize, zt_ptr_array_move_idx_to_idx, zt_ptr_array_del, zt_ptr_array_cat, zt_ptr_array_add, zt_ptr_array_free, zt_ptr_array_get_idx"]}
{"id": "C68", "title": "Memory of buffers and pointers into them", "statement": "Any number of buffers can be filled (from the program's own bytes, from pointers zt_buf_get gave, from vectors of these, from whole other buffers), drained, read and freed in any order: as long as a buffer from which something was drained is not made to outgrow its block, every answer is what it would be if buffers were byte strings, only blocks that are there are used, a pointer shows the same bytes until its buffer grows or is emptied, and what stays allocated is one block per open buffer and another if it ever grew. Violated: after a partial drain an addition is undefined exactly if it does not fit the rest of the block, and reserving room first reports success without helping; adding a buffer to itself loses its contents or reads freed memory; a pointer is dead once its buffer grows.", "quantifier": "all programs on any number of buffers and pointers, all byte strings and sizes below 2 GB, all addresses malloc and realloc may return", "why_tests_cant": "whether there is room, whether a pointer is still valid and what is allocated depend on the whole history of growth and draining and on where malloc puts blocks", "anchors": ["src/libzt/zt_buf.c: zt_buf_new, zt_buf_get, zt_buf_expand, zt_buf_drain, zt_buf_add, zt_buf_add_buf, zt_buf_remove, zt_buf_reserve, zt_buf_iov_len, zt_buf_iov_add, zt_buf_free"]}
{"id": "C69", "title": "Measured times and calibration", "statement": "zt_time stores exactly the user and system time that passed between the readings of the clock before and after its calls of the function, less the overhead measured by zt_time_calibrate, with microseconds in [0,10^6), and changes no other memory; usleep waits for the given number of microseconds. Violated: zt_time_calibrate always records an overhead of 0 (the measured value is subtracted from itself), so calibration never has an effect; usleep with a sum as argument waits far longer; n = INT_MAX overflows the counter.", "quantifier": "every function, every clock, every number of calls, every history of timings and calibrations, every memory", "why_tests_cant": "which times are subtracted depends on the history of calibrations and on every possible reading of the clock", "anchors": ["src/libzt/zt_time.c: zt_time, zt_time_calibrate, zt_diff_time, zt_sub_time", "src/libzt/zt_time.h: usleep, struct time_result"]}
{"id": "C70", "title": "Hex dumps", "statement": "A hex dump hands its callback every byte read, 16 a line, in order, with the address, two hexadecimal digits and a blank per byte and the printable characters, stops at once when the callback returns -1, ends with a call with NULL and returns the number of bytes; without a callback the same is printed as text. Violated: a last line of exactly 15 bytes is counted but never shown; dumping a memory block stops at the first byte 255, and a byte from 128 to 254 is undefined behaviour; addresses start again after 4 GB.", "quantifier": "all readers and callbacks, all byte sequences of any length, all contents of the uninitialised line buffers", "why_tests_cant": "which bytes are missing depends on the length and contents of the input and on what the callback returns", "anchors": ["src/libzt/zt_cstr.c: zt_hexdump, zt_hexdump_str, zt_hexdump_default_printer, _read_str", "src/libzt/zt_macros.h: INDENT_TO, BLANK"]}
{"id": "C71", "title": "Random floating point numbers", "statement": "zt_random_float lies in [0,1], zt_random_float00 in (0,1) and zt_random_float10 in [0,1), whatever number the generator gives; different numbers give different floats in the same order, and 0 and 1 are reached exactly where the interval is closed.", "quantifier": "all states of the generator, all 2^32 numbers, all seeds and histories", "why_tests_cant": "a rounding error at a single one of 2^32 numbers would leave the interval", "anchors": ["src/libzt/zt_random.h: zt_random_float, zt_random_float00, zt_random_float10"]}
{"id": "C72", "title": "Measured times as floats", "statement": "The user, system and total times zt_time_result_to_elapsed gives are the measured ones up to a relative error of 2^-23 (2^-22 for the total). Violated: the printed hundredths of a second are wrong from 2^18 seconds on, and from 2^24 seconds on even the seconds.", "quantifier": "all measured times below 2^53 seconds", "why_tests_cant": "the rounding error depends on every bit of the time", "anchors": ["src/libzt/zt_time.c: zt_time_result_to_elapsed"]}
{"id": "C73", "title": "Version 4 UUIDs from several threads", "statement": "A zt_uuid4 that returns has stored a version 4 UUID whatever other threads do; calls that do not overlap give what C33 says; once a first call has returned, calls that overlap do nothing undefined as long as no thread ends and the generator's block is not used up. Violated: two overlapping first calls may return the same UUID or read past the end of the generator's block, two overlapping calls at the end of a block may read past it, and a call that overlaps the end of another thread may use that thread's freed block.", "quantifier": "all schedules of any number of threads, all clocks, threads ending at any time", "why_tests_cant": "the schedules that break are short windows between two reads of a static", "anchors": ["src/libzt/zt_uuid.c: zt_uuid4, zt_uuid4_get_ctx", "src/libzt/zt_random.c: zt_random_uint32, zt_random_srandom"]}
{"id": "C74", "title": "zt_log used by several threads", "statement": "Threads that print messages and install default loggers, in any interleaving, do nothing undefined; each message is printed exactly once, in its thread's order, with the position given with it and never another thread's, on the logger named or on one that was the default at some time, if its level is within that logger's; when several threads find no default logger only one is made and given to zt_atexit once; no installed logger is lost or returned twice; threads never all wait for each other and every call returns. Violated once loggers are uninstalled or closed: a message may be printed nowhere, an installation may be undone by the closing of another logger, a logger may be returned to two threads, a closed logger may be used.", "quantifier": "all numbers of threads, programs and schedules", "why_tests_cant": "the windows are between two unlocked reads of one variable", "anchors": ["src/libzt/zt_log.c: zt_log_get_logger, zt_log_set_logger, zt_log_logger, zt_log_lprintf, zt_log_lvprintf, zt_log_get_ctx, zt_log_close"]}
{"id": "C75", "title": "zt_unit's report and memory", "statement": "For every history of registering, running, listing and releasing, with test functions that assert, raise or throw exceptions, set errors or fail: nothing undefined happens; the text printed is, line for line, the documented report; a reader of the lines finds every test with its verdict, in order, if no name or error text contains a newline; the memory in use is exactly that of the unit, and zt_unit_release frees all of it if nothing was run twice and no test function sets two errors; the colon of an entry is in column 30 when the name ends before, and a single-quoted error text can be read back exactly if it contains no apostrophe. Violated otherwise: an error text is lost at each further run of a failing test, texts with apostrophes are not YAML, long names move the colon, a test run by name does not say why it failed, the text of a thrown string literal is not told.", "quantifier": "all histories, names, test functions and allocators", "why_tests_cant": "the library's own tests use this report as their oracle; histories and texts are unbounded", "anchors": ["src/libzt/zt_unit.c: yaml_dict, yaml_value, yaml_list_elt, zt_unit_printf, zt_unit_run, zt_unit_run_suite, zt_unit_run_test, zt_unit_list, zt_unit_test_global_stats, zt_unit_release, zt_unit_release_suite, zt_unit_release_test", "src/libzt/zt_unit.h: ZT_UNIT_ASSERT, ZT_UNIT_SET_ERROR, ZT_UNIT_FAIL", "src/libzt/zt_unit_cpp.cpp: zt_unit_try_cpp"]}
{"id": "C76", "title": "zt_atexit from several threads", "statement": "For every number of threads, every list of callbacks each registers with zt_atexit and every interleaving of their accesses to memory: nothing undefined happens while they register; each thread finishes in a bounded number of its own steps; once all calls have returned, exit() calls each registered callback at most once, later registered ones first, and always the last registered one first of all. If no two calls overlap, every callback is called, in reverse order of registration. Violated otherwise: overlapping registrations lose callbacks, and exit() during a registration in another thread reads freed memory.", "quantifier": "all numbers of threads, callbacks and schedules (sequentially consistent memory)", "why_tests_cant": "the losing interleavings are a few instructions wide; no test enumerates all schedules", "anchors": ["src/libzt/zt_atexit.c: zt_atexit, _atexit_call, cb_stack", "src/libzt/zt_list.h: zt_elist_add2", "src/libzt/zt_stack.h: zt_stack_push, zt_stack_pop"]}
{"id": "C77", "title": "Running out of memory while splitting strings, growing buffers and storing options", "statement": "Whatever requests for memory are refused: zt_cstr_split, zt_cstr_cut and zt_cstr_tok either abort the program, or return an array that holds some of the pieces, in order, exactly one less per refused request, and freeing it gives back everything; a string array option holds the arguments there was memory for, in order and NULL-terminated, with nothing else left in use; with memory for all requests everything is complete; an addition to a buffer that fits needs no memory. Violated: an incomplete array is not reported as a failure; if the private copy is refused the functions read through NULL; a repeated string option leaks; a buffer that cannot grow is written through NULL by zt_buf_add, and loses its contents in a zt_buf_reserve that reports success.", "quantifier": "all patterns of refused requests, strings, delimiters, arguments, buffers and allocators", "why_tests_cant": "tests do not make malloc fail, and the failing request can be any one of arbitrarily many", "anchors": ["src/libzt/zt_cstr.c: zt_cstr_split, zt_cstr_cut, zt_cstr_tok", "src/libzt/zt_ptr_array.c: zt_ptr_array_init, zt_ptr_array_resize, zt_ptr_array_add, zt_ptr_array_free", "src/libzt/zt_opts.c: zt_opt_string, zt_opt_string_array", "src/libzt/zt_buf.c: zt_buf_expand, zt_buf_add, zt_buf_reserve"]}
{"id": "C78", "title": "Tail queues and the queues of a thread pool in memory", "statement": "With any number of queues and any allowed history of TAILQ_INSERT_HEAD, _INSERT_TAIL, _INSERT_AFTER, _INSERT_BEFORE, _REMOVE and _CONCAT, every access is to an entry that exists, and each queue shows exactly the list the history describes, forwards (TAILQ_FIRST, _NEXT, _FOREACH) and backwards (TAILQ_LAST, _PREV, _FOREACH_REVERSE), entries keep their data and no memory is taken or released. The two queues of a pool give back what zt_threadpool_insert_iput and _insert_oput put in, each in its order, and the memory in use is one block for each entry still queued. Outside the conditions: an entry inserted twice makes the walk endless, and a queue concatenated with itself loses its entries.", "quantifier": "all numbers of queues and entries, all histories of allowed calls, all allocators", "why_tests_cant": "the links of an entry depend on the whole history of the queues; tests cover a few", "anchors": ["compat/sys/queue.h: TAILQ_INSERT_HEAD, TAILQ_INSERT_TAIL, TAILQ_INSERT_AFTER, TAILQ_INSERT_BEFORE, TAILQ_REMOVE, TAILQ_CONCAT, TAILQ_FOREACH, TAILQ_FOREACH_REVERSE, TAILQ_LAST, TAILQ_PREV", "src/libzt/zt_threads.c: zt_threadpool_insert_iput, zt_threadpool_insert_oput, zt_threadpool_get_oput, _zt_threadpool_iput_loop, _zt_threadpool_oput_loop"]}
{"id": "C79", "title": "Splay trees", "statement": "For every comparison function that is a total preorder and every history of SPLAY_INSERT, _REMOVE, _FIND, _NEXT, _MIN, _MAX and _FOREACH on elements of the program (inserted elements not in the tree, successors asked of elements in the tree), every call terminates, accesses only existing elements and answers like a sorted set without equals: an insertion of an equal element answers the one present and changes nothing, searches and removals find an element exactly if an equal one is present, a walk visits all elements in order; elements keep their keys, no pointer to the functions' local node remains and no memory is taken. Violated: a removal answers the element given rather than the one removed; the successor of an equal element that is not in the tree is wrong.", "quantifier": "all comparison functions that are total preorders, all elements, all histories of calls, all shapes of the tree", "why_tests_cant": "each access rearranges the tree, so the shapes reached depend on the whole history", "anchors": ["compat/sys/tree.h: SPLAY_GENERATE, SPLAY_PROTOTYPE, SPLAY_ROTATE_RIGHT, SPLAY_ROTATE_LEFT, SPLAY_LINKLEFT, SPLAY_LINKRIGHT, SPLAY_ASSEMBLE, SPLAY_INSERT, SPLAY_REMOVE, SPLAY_FIND, SPLAY_NEXT, SPLAY_MIN, SPLAY_MAX, SPLAY_FOREACH"]}
{"id": "C80", "title": "Singly-linked lists", "statement": "With any number of SLIST, STAILQ or SIMPLEQ lists over the program's elements and any allowed history of _INIT, _INSERT_HEAD, _INSERT_TAIL, _INSERT_AFTER, _REMOVE_HEAD, _REMOVE and _CONCAT (an inserted element is in no list, one that is named is in the list named), every access is to an element that exists, _EMPTY, _FIRST, _NEXT and _FOREACH show exactly the list the history describes, no element is in two lists or twice in one, and nothing but the links of elements and the heads of initialised lists is written. The three kinds answer alike. Outside the conditions: removing an element that is not in the list, or the first of an empty one, follows the null pointer, whatever the history; an element inserted twice makes the walk endless.", "quantifier": "all numbers of lists and elements, all histories of allowed calls, all contents of the rest of the memory", "why_tests_cant": "the links and the address of the last one depend on the whole history of the lists; tests cover a few", "anchors": ["compat/sys/queue.h: SLIST_INSERT_HEAD, SLIST_INSERT_AFTER, SLIST_REMOVE, SLIST_REMOVE_HEAD, SLIST_FOREACH, STAILQ_INIT, STAILQ_INSERT_HEAD, STAILQ_INSERT_TAIL, STAILQ_INSERT_AFTER, STAILQ_REMOVE_HEAD, STAILQ_REMOVE, STAILQ_CONCAT, STAILQ_FOREACH, SIMPLEQ_INSERT_TAIL, SIMPLEQ_REMOVE"]}
{"id": "C81", "title": "Doubly-linked lists (LIST)", "statement": "With any number of LIST lists over the program's elements and any allowed history of LIST_INIT, _INSERT_HEAD, _INSERT_AFTER, _INSERT_BEFORE and _REMOVE (an inserted element is in no list, one that is named is in some list, which the macro is not told), every access is to an element that exists, LIST_EMPTY, _FIRST, _NEXT and _FOREACH show exactly the list the history describes, no element is in two lists or twice in one, and nothing but the links of elements and the heads of initialised lists is written. Outside the conditions: an element inserted twice makes the walk endless, one removed twice writes through its old links, after which other elements can no longer be removed.", "quantifier": "all numbers of lists and elements, all histories of allowed calls, all contents of the rest of the memory", "why_tests_cant": "the links and back addresses of an element depend on the whole history of the lists; tests cover a few", "anchors": ["compat/sys/queue.h: LIST_INIT, LIST_INSERT_HEAD, LIST_INSERT_AFTER, LIST_INSERT_BEFORE, LIST_REMOVE, LIST_FOREACH, LIST_EMPTY, LIST_FIRST, LIST_NEXT"]}
{"id": "C82", "title": "Circular queues", "statement": "With any number of CIRCLEQ queues over the program's elements and any allowed history of CIRCLEQ_INIT, _INSERT_HEAD, _INSERT_TAIL, _INSERT_AFTER, _INSERT_BEFORE and _REMOVE (an inserted element is in no queue, one that is named is in the queue named), every access is to an element that exists (never to a head as if it were one), each queue shows exactly the list the history describes, forwards (_FIRST, _NEXT, _FOREACH), backwards (_LAST, _PREV, _FOREACH_REVERSE) and around (_LOOP_NEXT, _LOOP_PREV), no element is in two queues or twice in one, and nothing but the links of elements and the heads of initialised queues is written. Outside the conditions: an element inserted twice makes the walk endless; removing the first or the last element of a queue with the head of another one uses a head as an element, whatever the history.", "quantifier": "all numbers of queues and elements, all histories of allowed calls, all contents of the rest of the memory", "why_tests_cant": "the links of an element depend on the whole history of the queues; tests cover a few", "anchors": ["compat/sys/queue.h: CIRCLEQ_INIT, CIRCLEQ_INSERT_HEAD, CIRCLEQ_INSERT_TAIL, CIRCLEQ_INSERT_AFTER, CIRCLEQ_INSERT_BEFORE, CIRCLEQ_REMOVE, CIRCLEQ_FOREACH, CIRCLEQ_FOREACH_REVERSE, CIRCLEQ_LOOP_NEXT, CIRCLEQ_LOOP_PREV"]}
{"id": "C83", "title": "Red-black tree macros", "statement": "For every history of RB_INSERT, RB_REMOVE, RB_FIND, RB_NFIND, RB_NEXT, RB_PREV, RB_MIN, RB_MAX, RB_FOREACH, RB_FOREACH_REVERSE and RB_EMPTY on a tree of compat/sys/tree.h with a three-way comparison (elements that exist are inserted, elements of the tree are removed or stepped from), every answer is that of the sorted list of the elements, and the tree stays an ordered red-black tree of exactly those elements with consistent parent pointers. RB_PREV is the element before (NULL before the first) and inverse to RB_NEXT, the reverse loop visits each element once from the last to the first, RB_EMPTY is true exactly of the tree without elements, and nothing but insertion and removal writes memory. RB_NEXT and RB_PREV of NULL are undefined.", "quantifier": "all comparisons, all element sets, all trees and histories of allowed calls, all contents of the rest of the memory", "why_tests_cant": "the shape of the tree depends on the whole history; tests take a few paths of the rotations and of the climb to the parent", "anchors": ["compat/sys/tree.h: RB_INSERT, RB_REMOVE, RB_FIND, RB_NFIND, RB_NEXT, RB_PREV, RB_MIN, RB_MAX, RB_FOREACH, RB_FOREACH_REVERSE, RB_EMPTY"]}
{"id": "C84", "title": "strsep", "statement": "strsep(&s, delim) of the library (where the C library has none) returns the place where s was; if the string has a character of delim, the first one is overwritten with NUL and s is set behind it, otherwise nothing is written and s becomes NULL; with s NULL the answer is NULL. Calling it until it answers NULL gives exactly the fields of the string cut at every separator, empty ones included, and at the end all of them are still readable and no byte but the separators has changed.", "quantifier": "all strings, all separator sets (the empty one too), all contents of the memory around the string", "why_tests_cant": "strings and separator sets are unbounded; tests take a few", "anchors": ["src/libzt/zt_win32.c: strsep", "src/libzt/zt_unit.c: the loop over strsep"]}
{"id": "C85", "title": "str_split", "statement": "str_split(str, delim, &elts) reads and writes only memory it may, for every string and every separator string, leaves str alone, answers NULL for NULL, and otherwise returns one block: a vector that shows the non-empty fields of the string in order, each readable until str_split_free, followed by NULL, with elts telling how many strings there are. (The last part is false: elts counts the empty fields too, so that with a leading, trailing or doubled separator or an empty string the slot elts-1 is NULL.) zt_unit_run_by_name uses it with \".\".", "quantifier": "all strings, all separator strings", "why_tests_cant": "strings and separator sets are unbounded; the number of slots is computed by one loop and used by another", "anchors": ["src/libzt/zt_unit.c: str_split, str_split_free, zt_unit_run_by_name"]}
{"id": "C86", "title": "Nodes of IPv4 tables in memory", "statement": "With any number of tables and any program of zt_ipv4_tbl_add_node and zt_ipv4_tbl_search_node on nodes in memory, every search ends and answers as if each table kept its own list of the nodes added to it. This holds if every node is fresh when it is added (as made by zt_ipv4_node_str_init and added once). It does not hold otherwise: a node added twice to a table makes searches in its chain endless; a node added to a second table brings nodes of the first along, which the second then reports, or cuts the first table's chain, so that networks in it are not found any more.", "quantifier": "all numbers and sizes of tables, all nodes and addresses, all programs", "why_tests_cant": "the chains depend on the whole history of additions in all tables; tests add each node once to one table", "anchors": ["src/libzt/zt_ipv4_tbl.c: zt_ipv4_tbl_add_node, zt_ipv4_tbl_search_node"]}
