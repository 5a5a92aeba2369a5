{
"C01": [
"proved",
"Round trip for all six definitions, caller-supplied and library-allocated output buffer."
],
"C02": [
"partial",
"encode_is_rfc4648 covers every caller-supplied buffer (any size) and the allocating mode. The remaining mode (*out == NULL with non-zero *out_bytes) is refuted: it reports success and produces nothing."
],
"C03": [
"partial",
"Safety, frame, size query, rejection and acceptance are proved for every caller-supplied buffer. Refuted: base16 with an odd number of digits is accepted, and *out == NULL with non-zero *out_bytes writes through NULL."
],
"C04": [
"partial",
"add/mul for both signednesses, signed sub and unsigned div are exact. Unsigned sub and signed div: soundness plus a guarded exactness theorem; full statements refuted."
],
"C05": [
"proved",
""
],
"C06": [
"proved",
""
],
"C44": [
"proved",
""
],
"C45": [
"partial",
"For 0 < n < INT_MAX the function is called n+1 times (proved); the claim n times is refuted; n = INT_MAX overflows the counter (C45_int_max_refuted)."
],
"C07": [
"partial",
"Even sizes: exact text, exact bytes, round trip, rejection. Refuted, for every odd size: C07_odd_overrun (one byte behind the buffer is written) and C07_odd_overread (one byte behind the text is read)."
],
"C08": [
"partial",
"Display length exact for every int; itoa exact when the NUL also fits; the bound check is off by one: for every number that fills the buffer the NUL is written behind it (C08_itoa_overrun)."
],
"C09": [
"proved",
"Non-empty patterns; an empty pattern is reported as not found (C09_empty_pattern)."
],
"C10": [
"partial",
"any: proved. upto/rupto: non-empty strings (empty refuted, exact: C10_empty_sets, C10_empty_chr). rany reports a slice-relative position, chr/rchr report 0 for not found, rspn/rcspn never look at the first character (all refuted, with the true behaviour proved for every argument: C10_rspn_first, C10_rcspn_first)."
],
"C11": [
"partial",
"sub, reverse, pos: proved. cat, len, map exactly for every argument (C11_cat_exact, C11_len_exact, C11_map_exact, C11_map_lengths): empty strings and characters from 226 on are the deviations. dup: proved below the size_t wrap, undefined behaviour for every size beyond (C11_dup_overflow). catv: up to the first empty argument. copy: non-empty, empty exact (C11_copy_empty)."
],
"C12": [
"partial",
"Different lengths: full order. Equal lengths: order of the slices without their last character (claim refuted there). Empty strings: exact (C12_cmp_empty), compared equal to every string of one character."
],
"C13": [
"partial",
"strip, path_append, dirname and basename (with and without a suffix) are characterised exactly for every argument (C13_strip_exact, C13_path_append_exact, C13_dirname_exact, C13_basename_exact, C13_basename_suffix_exact: which covers the claim where it holds and says what happens where it does not). Counterexamples outside: the last character of a cut name, single characters, empty texts."
],
"C14": [
"partial",
"split: proved for all inputs. cut with a NUL delimiter and tok on the empty string are undefined behaviour (refuted)."
],
"C15": [
"partial",
"Histories proved with the stated guards, delete exactly for any array (C15_del_exact); refuted: del of a duplicated pointer, get_idx with negative index, move past the end, cat with itself."
],
"C16": [
"partial",
"Byte-FIFO histories proved as long as the block does not grow after a partial drain; after a partial drain an addition works exactly if it fits the block and is undefined behaviour otherwise (C16_add_after_drain_exact, refuted)."
],
"C17": [
"partial",
"new/get/put/copy/resize/with proved for every size whose byte count fits size_t; refuted: empty string, size_t wrap, set_length beyond the block."
],
"C18": [
"partial",
"Round trip, layout and full write/read/rewind histories proved; clone loses the byte order and truncate leaves the position (refuted)."
],
"C22": [
"proved",
""
],
"C23": [
"proved",
"The comparison is used as a boolean 'not before' test; a strcmp-like three-way function does not sort (C23_three_way_refuted)."
],
"C24": [
"partial",
"All operations on well-formed rings; join with an empty list is refuted."
],
"C25": [
"partial",
"Stack and queue histories; dequeue on an empty queue hands out the queue head (refuted)."
],
"C19": [
"partial",
"Map semantics for every history, hash and comparison callback, provided deletes meet at most one more recent binding in the bucket. Refuted: del loses bindings further down the chain, hint 32768..65534, USE_HINT with a non power of two, 64-bit hashes, prefix string keys, case-insensitive keys, binary keys."
],
"C20": [
"partial",
"Iteration and copy proved; copying into a table with duplicate keys exact for any two tables (C20_copy_dup_exact: of several bindings of a key the oldest is found; a copy of a copy answers like the original, C20_copy_dup_twice), which refutes the copy of duplicate keys."
],
"C21": [
"partial",
"insert, is_member, intersection, difference, is_subset, is_equal proved. remove and union refuted (union proved for disjoint sets)."
],
"C29": [
"partial",
"search is proved exact for every set of networks, every table size and every address, except that with all 32 prefix lengths present a miss overruns in[32] (refuted). Parsing: 'text/digits' proved; negative prefix, garbage prefix and short un-slashed address refuted."
],
"C30": [
"partial",
"Digest = FIPS 180-4 SHA-1 of the concatenation, proved for every cutting with each update <= 2^32-64 bytes and total < 2^64 bits; zt_sha1_data for every length the assertion admits. Refuted: an update that with the pending bytes exceeds 2^32 overruns the context; zt_sha1_tostr does not terminate its text."
],
"C31": [
"partial",
"Refuted in general: every complete block of the caller's data beyond the first block boundary is overwritten (exact effect proved). Proved unchanged when there is no such block."
],
"C32": [
"proved",
"Every seed and number of draws: the MT19937 sequence; every non-empty seed array: the reference init_by_array (described as a sequence in RandArray.v, shown to determine the state). An empty array is read out of bounds (C32_initstate_empty_refuted)."
],
"C33": [
"partial",
"Round trip in all four text formats for every UUID, exact text, validity, injectivity, version/variant bits of uuid4 in every history of calls and of uuid5 (= SHA-1), comparison = order of 128-bit numbers. Partial/refuted: fillstr aborts with a base62 buffer larger than 23; fromstr accepts invalid texts and reads uninitialised/over-end memory on some; base62 texts not unique; uuid4 not unique across threads in the same second; uuid5 modifies long values."
],
"C26": [
"proved",
"Every operation history on every red-black tree, with pointer-level model (colours, parent links, rotations, successor replacement): behaves as the sorted list; invariants, height <= 2 log2(n+1), loops bounded by it, foreign cells untouched; safe iteration with removal. C26_empty_refuted: the zt_rbt_empty macro is true of every non-empty tree."
],
"C27": [
"proved",
"Invariant over every history; init for every size without overflow; layout/disjointness; destroy. Refuted side claims recorded: reported cache size, page_frees after release_free_pages, destroy not atomic, size overflow, alignment for sizes not multiple of 8, malloc failure unnoticed, group 'closest size', unnamed group descriptors."
],
"C28": [
"proved",
"every history with roots destroyed; refuted side cases: destroying one of several sub-pools leaks the others and leaves dangling parents; strdup of an empty string is not tracked. Block contents and sizes are not modelled"
],
"C41": [
"proved",
"all histories of the stated calls; refuted without the restrictions: protect, mark or unregister during a half-way incremental collection lose live objects or walk off the list; unregister never starts a collection. The intrusive lists are modelled as lists (C24 covers the links)"
],
"C39": [
"proved",
"All calls of zt_log.c and the message text of log_private.c. Findings: C39_strerror_gnu_refuted (with the GNU strerror_r the Linux build selects, zt_log_lstrerror reads uninitialised memory), C39_percent_refuted (names containing % are interpreted as conversions), C39_close_default_twice. One thread; printf modelled by shape only."
],
"C40": [
"proved",
"zt_atexit.c on the link heap of zt_list.h, with the C library's atexit/exit; callbacks may register more callbacks and libc handlers."
],
"C43": [
"proved",
"Findings: C43_by_name_refuted (names \"\", \".\", \"suite.\" and \".suite\" give strlen(NULL)), C43_by_name_balance_refuted (a test run by name is not counted as a test), C43_rerun_assertions_refuted. Test functions are lists of assertions; the C++ try function and the YAML text are not modelled."
],
"C37": [
"proved",
"Interleaving model of both loops, insert_iput/oput, get_oput, kill over mutexes and condition variables (spurious wake-ups included), any number of threads and clients, any callback results; FIFO, exactly once, outputs, mutual exclusion, memory safety, per-thread order, boundedness and completeness at rest."
],
"C38": [
"proved",
"Statement amended to what holds; the two negative theorems (_refuted) show the lost wake-up hang and the undelivered outputs of the code."
],
"C36": [
"proved",
"Command lines made of the documented forms are applied exactly once and in order (any error handler); every argument vector is safe with the default handler; rejections proved. Findings kept as _refuted: no '--' terminator; letters of an attached value are parsed again as options; unknown letters after a known one are ignored; a grouped value option takes the group as its value; -oa=b stores b; empty numbers accepted; value option without long name dereferences NULL; a returning error handler leads to strtol(NULL) or *argc beyond argv."
],
"C46": [
"proved",
"wrap covers the loop of _zt_opt_help_stdout_printer. Finding: a word of 50 or more characters makes it read before the text or print for ever (C46_long_word_refuted)."
],
"C35": [
"proved",
"Histories of assignments (files and zt_cfg_set), typed lookup, references, INI syntax. Findings kept as _refuted: self references and cycles make zt_cfg_get loop for ever; an empty value reads val[SIZE_MAX]; a block name of 1024+ characters leads to a NULL block name; a last line without newline and one-character value is refused; an unclosed header swallows the file; missing closing quote drops a character; numeric-looking strings cannot be read as strings; out-of-range integers are clamped silently; zt_cfg_get on a boolean returns 0 on success."
],
"C42": [
"proved",
"zt_find_basedir: for every existence predicate, the longest directory of the path holding the trigger. zt_mkdir: with parents, whenever possible, exactly the missing directories are made; safety for every file system state; -1 when an intermediate directory is refused. Refuted side claims (findings): an empty path or a refused target hangs; a regular file in the way counts as success; a path longer than PATH_MAX is UB in zt_find_basedir. No symbolic links, no concurrent changes."
],
"C34": [
"proved",
"Every format made of text, doubled control characters and directives (flags, width, precision, * arguments) and every fitting argument: any callback receives exactly the rendered characters; sprintf fits or stops, and for any format and arguments never changes a byte beyond the size given; strprintf is complete. INT_MAX and INT_MIN are excluded for %d (refuted: wrong digits, overflow). Comparison with C printf is proved where it holds and refuted elsewhere (sign before padding, no left padding of strings, + ignored, %.0d, zeros before %g, count of fprintf, %.99f overflow). Floating point digits are the C library's."
],
"C47": [
"partial",
"proved for names and directories that fit the buffer (C47_*_partial); the last PATH directory without trailing separator, empty PATH entries, programs in / are refuted"
],
"C48": [
"partial",
"Full effect for every descriptor limit from 3 to 2^31 and every failure of fork, setsid, getrlimit and chdir. Refuted parts: with a higher (or no) limit the call hangs; the caller's exit status is 0 although there is no daemon; if /dev/null cannot be opened the call still returns 0, with no standard descriptors."
],
"C49": [
"partial",
"Return value and file content for every pattern of interruptions, short writes and failures. Refuted part: an interrupted close is repeated, and where the first call already released the descriptor the function reports failure for a complete file."
],
"C50": [
"proved",
"Every file whose base name is shorter than PATH_MAX; a longer one is read beyond the local array (C50_long_name_refuted)."
],
"C51": [
"partial",
"Sizes whose product fits size_t. Refuted: zt_malloc and zt_realloc multiply without overflow check and return blocks that are too small; zt_realloc(p, 0) aborts although there is memory (glibc)."
],
"C52": [
"partial",
"Every history of table calls, dispatch, pthreads mapping. Refuted part: zt_threadpool_set_callbacks(NULL) keeps the finalizer."
],
"C53": [
"partial",
"Signals, order, start and stop for every history. Refuted: a failing output pipe closes descriptor 0 twice and leaks the input pipe; failing thread starts are not noticed and kill then joins threads that do not exist; a full pipe blocks the insertion while it holds the lock; an insertion reporting failure was made; the kill byte of the input side is the thread count mod 256; setting the output loop after init writes through NULL."
],
"C54": [
"proved",
"Exact: success exactly when there is memory and the text fits; no leak in any case."
],
"C55": [
"partial",
"Proved when the expansion at most doubles the format, the output is at most six times as long and the format has no %%m. Refuted otherwise: an error text longer than the format plus 2 overruns the buffer, long output overruns the other buffer, %%m is replaced."
],
"C56": [
"proved",
"Every path."
],
"C57": [
"partial",
"Exact output for every table whose help texts have words below 50 bytes. Refuted: names of exactly 30 bytes run into the text, longer ones shift the column (exact behaviour proved); an entry without help text is undefined behaviour."
],
"C58": [
"partial",
"Exact message, handler and help. Refuted: help exits with status 255; a code that is a multiple of 256 exits with 0."
],
"C59": [
"partial",
"Proved for every history when malloc finds memory for the copies of the names (C59_get, C59_destroy, C59_hook, C59_exit, C59_no_memory); refuted when the copy of a name fails: C59_name_refuted."
],
"C60": [
"partial",
"Figures, group creation without failures, group destruction and heaps are proved; refuted: a creation that fails at a later pool leaves the first pool behind (C60_group_back_out_refuted), at the first pool is undefined behaviour (C60_group_first_refuted), a group with unnamed descriptors cannot be destroyed (C60_group_short_refuted), heap sizes near 2^64 (C60_heap_refuted)."
],
"C61": [
"partial",
"proved for every program on any number of tables: no undefined behaviour, own elements of sufficient size, separate pools, exact effect of set, del and destroy on the elements in use, no leak for programs that delete only from the first two places of a chain. The full claim is false: C61_leak_refuted (zt_table_del drops nodes without releasing them; the node pool survives the table and the exit handler), C61_foreign_pool_refuted."
],
"C62": [
"partial",
"proved: refinement of the list model of C19/C20 by nodes in memory for every program and allocator (C62_history and per function), callbacks that look, that add any bindings, that delete the key they are given every time, and copying a table onto itself. The full claim is false: C62_delete_other_refuted (use of a released node), C62_delete_some_refuted (a binding that was not deleted is lost; zt_table_del's bug of C19)."
],
"C63": [
"partial",
"proved for every program, any coincidence of arguments, every allocator: no undefined behaviour, termination, proper sets, exact effect of each operation, correct union under stated conditions, subset and equality exact, destroy calls the function once per member. The full claim is false: C63_union_in_place_refuted, C63_intersection_in_place_refuted, C63_difference_in_place_refuted (universally: C63_intersection_in_place, C63_difference_in_place, C63_difference_into_second), C63_destroyed_twice_refuted. zt_set_remove is treated in C21."
],
"C64": [
"partial",
"Proved: every program on arrays and streams that is right on values runs in memory with the same answers for every allocator, with exact counts of what is left allocated (C64_history, C64_all_freed, C64_nothing_dropped), and the by-reference behaviour. Violated by the code: set_data and growth after truncation leak (C64_set_data_leak_refuted, C64_truncate_leak_refuted); static or shared data and a stream's own array end in undefined behaviour (C64_static_data, C64_shared_data, C64_reference_resize, C64_set_own_array). Allocation failure is not modelled."
],
"C65": [
"partial",
"Proved: every program in which no table is larger than an older one answers as if each table were alone, for every allocator, with exact counts of the elements that stay in use (C65_history); tables never used leave no pool (C65_unused). Violated by the code: after any such history that added a network, adding to a larger table is undefined (C65_bigger_refuted); searches and bad texts leak (C65_search_refuted, C65_bad_text_refuted). Allocation failure is not modelled."
],
"C66": [
"partial",
"all programs on any number of configurations run in memory as on values, handed-out strings stay readable while the configuration is open, and the blocks left are counted exactly; violated: replaced strings, refused booleans and failed loads are never freed (C66_*_refuted); a string read after close is UB (C66_dangling)"
],
"C67": [
"partial",
"all programs in which a member is freed once, when no array holds it, run in memory as on lists of members, with an exact count of the blocks left; violated: free with members after move, after cat, delete of a duplicate with callback (C67_*_refuted)"
],
"C68": [
"partial",
"all programs in which no drained buffer outgrows its block run in memory as on byte strings, pointers show their bytes until growth or emptying, exact count of blocks, exact condition for an addition after a drain; violated: growth after a drain, reserve without effect, a buffer added to itself, pointers after growth (C68_*_refuted)"
],
"C69": [
"partial",
"proved for every history of timings and calibrations and every clock (C69_elapsed, C69_calibrate); violated: calibration never has an effect (C69_calibrate_refuted), usleep of a sum (C69_usleep_sum_refuted)"
],
"C70": [
"partial",
"Exact for every reader, callback and byte sequence whose length is not 15 modulo 16 (C70_dump_partial, C70_note, C70_default, C70_str); C70_15_refuted, C70_str_255_refuted and C70_str_high_refuted are the violations."
],
"C71": [
"proved",
"All generator states and numbers; C71_history for every seed and history."
],
"C72": [
"partial",
"Relative error bounds proved for all times (C72_elapsed); the two digits printed are refuted for long times."
],
"C73": [
"partial",
"Proved: the bits for every schedule; calls one after the other = C33; no undefined behaviour in the 620 steps after a first call, in any number of threads. Refuted: same UUID twice, reads past the end, use after free. Missing: weak memory; a bound-free characterisation of the schedules that are safe."
],
"C74": [
"partial",
"Every schedule of any number of threads that print and install; progress and termination for all programs. Refuted: messages lost when the default is uninstalled meanwhile, an installation undone by a concurrent close, a logger returned twice, use of a closed logger. Sequentially consistent memory; one print is one step."
],
"C75": [
"partial",
"Proved for every history: no undefined behaviour, exact report, exact memory, readable verdicts, nothing lost if nothing runs twice. Refuted: C75_release_refuted (texts lost), C75_yaml_refuted (apostrophes), C75_column_refuted (long names), C75_why_refuted (test run by name), C75_readable_refuted (newlines in names), C75_thrown_text_refuted (string literals thrown). Not modelled: allocation failure, output of setup and teardown functions."
],
"C76": [
"partial",
"Safety, LIFO order, at-most-once, last-first and bounded steps proved for every schedule, completeness for schedules without overlap; that no callback is lost and that exit may overlap a registration are refuted. Sequential consistency assumed; callbacks at exit register nothing."
],
"C77": [
"partial",
"Exact effect of every pattern of refusals; that an incomplete result is reported, that the copy may be refused, that repeated options do not leak and that a buffer survives a refused growth are refuted."
],
"C78": [
"proved",
"the two refuted theorems say what happens outside the conditions of use"
],
"C79": [
"partial",
"Proved for every history of allowed calls. Refuted: the answer of a removal by an equal element, and the successor of an equal element outside the tree."
],
"C80": [
"proved",
"every macro of the three families; the deviations outside the contract are universally quantified"
],
"C81": [
"proved",
"every macro of the family"
],
"C82": [
"proved",
"every macro of the family; the wrong head is universally quantified"
],
"C83": [
"proved",
"All histories of the macro calls on all trees; RB_INSERT, RB_REMOVE, RB_FIND, RB_NFIND and RB_MINMAX are the same text as zt_tree.c and share its model."
],
"C84": [
"proved",
"Every string, separator set and surrounding memory; the loop to the end."
],
"C85": [
"partial",
"Proved for every string and separator string; the number of strings is refuted, exactly when some field is empty (C85_count_refuted)."
],
"C86": [
"partial",
"Proved for every program that adds each node once, fresh; refuted for nodes added twice or to two tables."
]
}