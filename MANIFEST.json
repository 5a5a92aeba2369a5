{
 "claims": [
  {
   "property": "C01",
   "status": "proved",
   "theorems": [
    "C01_roundtrip",
    "C01_roundtrip_allocating"
   ],
   "note": "Round trip for all six definitions, caller-supplied and library-allocated output buffer."
  },
  {
   "property": "C02",
   "status": "partial",
   "theorems": [
    "C02_encode_is_rfc4648",
    "C02_encode_null_out_refuted",
    "C02_bad_definition",
    "C02_bad_base",
    "C02_encode_null_exact"
   ],
   "note": "encode_is_rfc4648 covers every caller-supplied buffer (any size) and the allocating mode. The remaining mode (*out == NULL with non-zero *out_bytes) is refuted: it reports success and produces nothing."
  },
  {
   "property": "C03",
   "status": "partial",
   "theorems": [
    "C03_decode_safe",
    "C03_decode_frame",
    "C03_decode_size_query",
    "C03_decode_rejects",
    "C03_decode_accepts",
    "C03_decode_bad_count",
    "C03_base16_odd_digits_refuted",
    "C03_decode_null_out_refuted",
    "C03_decode_null_exact",
    "C03_base16_odd_exact"
   ],
   "note": "Safety, frame, size query, rejection and acceptance are proved for every caller-supplied buffer. Refuted: base16 with an odd number of digits is accepted, and *out == NULL with non-zero *out_bytes writes through NULL."
  },
  {
   "property": "C04",
   "status": "partial",
   "theorems": [
    "C04_unsigned_add",
    "C04_signed_add",
    "C04_signed_sub",
    "C04_unsigned_mul",
    "C04_signed_mul",
    "C04_unsigned_div",
    "C04_unsigned_sub_partial",
    "C04_unsigned_sub_sound",
    "C04_unsigned_sub_refuted",
    "C04_unsigned_sub_exact",
    "C04_signed_div_partial",
    "C04_signed_div_sound",
    "C04_signed_div_refuted",
    "C04_signed_div_negative"
   ],
   "note": "add/mul for both signednesses, signed sub and unsigned div are exact. Unsigned sub and signed div: soundness plus a guarded exactness theorem; full statements refuted."
  },
  {
   "property": "C05",
   "status": "proved",
   "theorems": [
    "C05_add_time",
    "C05_add_time_any",
    "C05_sub_time",
    "C05_diff_time",
    "C05_cmp_time"
   ],
   "note": ""
  },
  {
   "property": "C06",
   "status": "proved",
   "theorems": [
    "C06_hash32_buff_is_fnv1a",
    "C06_hash64_buff_is_fnv1a",
    "C06_hash32_cstr",
    "C06_hash64_cstr",
    "C06_incremental32",
    "C06_incremental64",
    "C06_single_byte_change32",
    "C06_single_byte_change64",
    "C06_fold_sub32",
    "C06_fold_wide",
    "C06_fold_named"
   ],
   "note": ""
  },
  {
   "property": "C07",
   "status": "partial",
   "theorems": [
    "C07_binary_to_hex",
    "C07_binary_to_hex_size",
    "C07_hex_to_binary",
    "C07_roundtrip",
    "C07_hex_roundtrip",
    "C07_hex_to_binary_rejects",
    "C07_odd_size_refuted",
    "C07_odd_overrun",
    "C07_odd_overread"
   ],
   "note": "Even sizes: exact text, exact bytes, round trip, rejection. Refuted, for every odd size: C07_odd_overrun (one byte behind the buffer is written) and C07_odd_overread (one byte behind the text is read)."
  },
  {
   "property": "C08",
   "status": "partial",
   "theorems": [
    "C08_int_display_len",
    "C08_decimal_faithful",
    "C08_itoa_partial",
    "C08_itoa_too_small",
    "C08_itoa_bound_refuted",
    "C08_itoa_overrun"
   ],
   "note": "Display length exact for every int; itoa exact when the NUL also fits; the bound check is off by one: for every number that fills the buffer the NUL is written behind it (C08_itoa_overrun)."
  },
  {
   "property": "C09",
   "status": "proved",
   "theorems": [
    "C09_find",
    "C09_rfind",
    "C09_empty_pattern"
   ],
   "note": "Non-empty patterns; an empty pattern is reported as not found (C09_empty_pattern)."
  },
  {
   "property": "C10",
   "status": "partial",
   "theorems": [
    "C10_any",
    "C10_upto_partial",
    "C10_rupto_partial",
    "C10_upto_empty_refuted",
    "C10_rany_partial",
    "C10_rany_position_refuted",
    "C10_chr_partial",
    "C10_rchr_partial",
    "C10_chr_not_found_refuted",
    "C10_chr_high_refuted",
    "C10_rspn_partial",
    "C10_rspn_all",
    "C10_rspn_first_refuted",
    "C10_rcspn_partial",
    "C10_rcspn_none",
    "C10_rcspn_first_refuted",
    "C10_empty_sets",
    "C10_empty_chr",
    "C10_rspn_first",
    "C10_rcspn_first"
   ],
   "note": "any: proved. upto/rupto: non-empty strings (empty refuted, exact: C10_empty_sets, C10_empty_chr). rany reports a slice-relative position, chr/rchr report 0 for not found, rspn/rcspn never look at the first character (all refuted, with the true behaviour proved for every argument: C10_rspn_first, C10_rcspn_first)."
  },
  {
   "property": "C11",
   "status": "partial",
   "theorems": [
    "C11_sub",
    "C11_reverse",
    "C11_dup_partial",
    "C11_dup_overflow_refuted",
    "C11_map_partial",
    "C11_map_high_refuted",
    "C11_cat_partial",
    "C11_cat_empty_first_refuted",
    "C11_catv_partial",
    "C11_catv_nonempty",
    "C11_pos",
    "C11_pos_aborts",
    "C11_len_partial",
    "C11_len_empty_refuted",
    "C11_copy_partial",
    "C11_out_of_range_aborts",
    "C11_cat_exact",
    "C11_len_exact",
    "C11_copy_empty",
    "C11_map_exact",
    "C11_map_lengths",
    "C11_dup_overflow"
   ],
   "note": "sub, reverse, pos: proved. cat, len, map exactly for every argument (C11_cat_exact, C11_len_exact, C11_map_exact, C11_map_lengths): empty strings and characters from 226 on are the deviations. dup: proved below the size_t wrap, undefined behaviour for every size beyond (C11_dup_overflow). catv: up to the first empty argument. copy: non-empty, empty exact (C11_copy_empty)."
  },
  {
   "property": "C12",
   "status": "partial",
   "theorems": [
    "C12_cmp_partial",
    "C12_lex_eq",
    "C12_cmp_equal_refuted",
    "C12_cmp_empty"
   ],
   "note": "Different lengths: full order. Equal lengths: order of the slices without their last character (claim refuted there). Empty strings: exact (C12_cmp_empty), compared equal to every string of one character."
  },
  {
   "property": "C13",
   "status": "partial",
   "theorems": [
    "C13_basename_suffix_exact",
    "C13_chomp_newline",
    "C13_chomp_other",
    "C13_chomp_empty_refuted",
    "C13_strip_partial",
    "C13_strip_newline_partial",
    "C13_strip_single_refuted",
    "C13_strip_overflow_refuted",
    "C13_basename_partial",
    "C13_basename_suffix_partial",
    "C13_basename_refuted",
    "C13_dirname_partial",
    "C13_dirname_no_separator",
    "C13_dirname_root_refuted",
    "C13_path_append_partial",
    "C13_path_append_refuted",
    "C13_abspath",
    "C13_strip_cases",
    "C13_strip_exact",
    "C13_strip_blank",
    "C13_path_append_exact",
    "C13_path_append_empty",
    "C13_shown",
    "C13_basename_exact",
    "C13_dirname_exact",
    "C13_dirname_none"
   ],
   "note": "strip, path_append, dirname and basename (with and without a suffix) are characterised exactly for every argument (C13_strip_exact, C13_path_append_exact, C13_dirname_exact, C13_basename_exact, C13_basename_suffix_exact: which covers the claim where it holds and says what happens where it does not). Counterexamples outside: the last character of a cut name, single characters, empty texts."
  },
  {
   "property": "C14",
   "status": "partial",
   "theorems": [
    "C14_split",
    "C14_split_nothing_lost",
    "C14_cut",
    "C14_cut_nul_refuted",
    "C14_tok",
    "C14_tok_empty_refuted"
   ],
   "note": "split: proved for all inputs. cut with a NUL delimiter and tok on the empty string are undefined behaviour (refuted)."
  },
  {
   "property": "C15",
   "status": "partial",
   "theorems": [
    "C15_move_end",
    "C15_move_refused",
    "C15_init",
    "C15_history_partial",
    "C15_capacity",
    "C15_resize",
    "C15_resize_negative",
    "C15_del",
    "C15_del_absent",
    "C15_del_exact",
    "C15_get_last_partial",
    "C15_copy_data",
    "C15_cat_partial",
    "C15_free",
    "C15_del_duplicates_refuted",
    "C15_get_last_empty_refuted",
    "C15_get_negative_refuted",
    "C15_move_bound_refuted",
    "C15_cat_self_refuted"
   ],
   "note": "Histories proved with the stated guards, delete exactly for any array (C15_del_exact); refuted: del of a duplicated pointer, get_idx with negative index, move past the end, cat with itself."
  },
  {
   "property": "C16",
   "status": "partial",
   "theorems": [
    "C16_add_after_drain_exact",
    "C16_new",
    "C16_history_partial",
    "C16_drain",
    "C16_remove",
    "C16_add_buf_partial",
    "C16_iov_add_partial",
    "C16_length",
    "C16_add_after_drain_refuted",
    "C16_grow_after_drain_refuted",
    "C16_grow_after_drain_general_refuted"
   ],
   "note": "Byte-FIFO histories proved as long as the block does not grow after a partial drain; after a partial drain an addition works exactly if it fits the block and is undefined behaviour otherwise (C16_add_after_drain_exact, refuted)."
  },
  {
   "property": "C17",
   "status": "partial",
   "theorems": [
    "C17_new",
    "C17_length",
    "C17_get",
    "C17_get_address",
    "C17_put",
    "C17_out_of_range",
    "C17_resize",
    "C17_resize_zero_aborts",
    "C17_copy",
    "C17_with",
    "C17_with_cstr",
    "C17_with_empty_cstr_refuted",
    "C17_size_wrap_refuted",
    "C17_set_length_refuted",
    "C17_set_length_exact"
   ],
   "note": "new/get/put/copy/resize/with proved for every size whose byte count fits size_t; refuted: empty string, size_t wrap, set_length beyond the block."
  },
  {
   "property": "C18",
   "status": "partial",
   "theorems": [
    "C18_roundtrip",
    "C18_new",
    "C18_history",
    "C18_flip",
    "C18_read_past_end_aborts",
    "C18_clone_partial",
    "C18_set_data",
    "C18_set_array",
    "C18_clone_loses_flip_refuted",
    "C18_truncate_partial",
    "C18_truncate_then_write_refuted",
    "C18_truncate_exact"
   ],
   "note": "Round trip, layout and full write/read/rewind histories proved; clone loses the byte order and truncate leaves the position (refuted)."
  },
  {
   "property": "C19",
   "status": "partial",
   "theorems": [
    "C19_init_partial",
    "C19_init_hint_partial",
    "C19_get",
    "C19_set",
    "C19_del_missing",
    "C19_del_effect",
    "C19_del_partial",
    "C19_history_partial",
    "C19_int_keys",
    "C19_string_keys_partial",
    "C19_buff_keys_partial",
    "C19_string_case_compare",
    "C19_del_loses_bindings_refuted",
    "C19_hint_65535_refuted",
    "C19_huge_hint_refuted",
    "C19_use_hint_refuted",
    "C19_wide_hash_refuted",
    "C19_string_prefix_keys_refuted",
    "C19_string_case_refuted",
    "C19_binary_keys_refuted"
   ],
   "note": "Map semantics for every history, hash and comparison callback, provided deletes meet at most one more recent binding in the bucket. Refuted: del loses bindings further down the chain, hint 32768..65534, USE_HINT with a non power of two, 64-bit hashes, prefix string keys, case-insensitive keys, binary keys."
  },
  {
   "property": "C20",
   "status": "partial",
   "theorems": [
    "C20_for_each",
    "C20_for_each_complete",
    "C20_copy",
    "C20_copy_to_empty",
    "C20_copy_dup_partial",
    "C20_copy_dup_refuted",
    "C20_copy_dup_exact",
    "C20_copy_dup_twice"
   ],
   "note": "Iteration and copy proved; copying into a table with duplicate keys exact for any two tables (C20_copy_dup_exact: of several bindings of a key the oldest is found; a copy of a copy answers like the original, C20_copy_dup_twice), which refutes the copy of duplicate keys."
  },
  {
   "property": "C21",
   "status": "partial",
   "theorems": [
    "C21_hash",
    "C21_init",
    "C21_is_member",
    "C21_insert",
    "C21_intersection",
    "C21_difference",
    "C21_union_partial",
    "C21_is_subset",
    "C21_is_equal",
    "C21_remove_refuted",
    "C21_remove_never_removes_refuted",
    "C21_union_refuted",
    "C21_long_element_refuted",
    "C21_int_match"
   ],
   "note": "insert, is_member, intersection, difference, is_subset, is_equal proved. remove and union refuted (union proved for disjoint sets)."
  },
  {
   "property": "C22",
   "status": "proved",
   "theorems": [
    "C22_cons",
    "C22_pop",
    "C22_nth",
    "C22_nthtail",
    "C22_reverse",
    "C22_nreverse",
    "C22_nmerge",
    "C22_nmerge_sorted",
    "C22_free"
   ],
   "note": ""
  },
  {
   "property": "C23",
   "status": "proved",
   "theorems": [
    "C23_sort_permutation",
    "C23_sort_sorted",
    "C23_sort_stable",
    "C23_three_way_refuted"
   ],
   "note": "The comparison is used as a boolean 'not before' test; a strcmp-like three-way function does not sort (C23_three_way_refuted)."
  },
  {
   "property": "C24",
   "status": "partial",
   "theorems": [
    "C24_reset",
    "C24_add",
    "C24_add_tail",
    "C24_remove",
    "C24_remove_undoes_add",
    "C24_join_partial",
    "C24_join_empty_refuted",
    "C24_empty",
    "C24_for_each",
    "C24_for_each_safe",
    "C24_disjoint_rings"
   ],
   "note": "All operations on well-formed rings; join with an empty list is refuted."
  },
  {
   "property": "C25",
   "status": "partial",
   "theorems": [
    "C25_stack_lifo",
    "C25_queue_fifo",
    "C25_empty",
    "C25_peek",
    "C25_dequeue_empty_refuted"
   ],
   "note": "Stack and queue histories; dequeue on an empty queue hands out the queue head (refuted)."
  },
  {
   "property": "C26",
   "status": "proved",
   "theorems": [
    "C26_history",
    "C26_from_empty",
    "C26_insert",
    "C26_remove",
    "C26_find",
    "C26_nfind",
    "C26_next",
    "C26_for_each",
    "C26_minmax",
    "C26_for_each_safe",
    "C26_height",
    "C26_empty_refuted"
   ],
   "note": "Every operation history on every red-black tree, with pointer-level model (colours, parent links, rotations, successor replacement): behaves as the sorted list; invariants, height <= 2 log2(n+1), loops bounded by it, foreign cells untouched; safe iteration with removal. C26_empty_refuted: the zt_rbt_empty macro is true of every non-empty tree."
  },
  {
   "property": "C27",
   "status": "proved",
   "theorems": [
    "C27_init",
    "C27_alloc",
    "C27_release",
    "C27_history",
    "C27_layout",
    "C27_trim",
    "C27_destroy",
    "C27_accounting",
    "C27_never_free",
    "C27_group",
    "C27_cache_refuted",
    "C27_trim_accounting_refuted",
    "C27_destroy_atomic_refuted",
    "C27_overflow_refuted",
    "C27_alignment",
    "C27_alignment_refuted",
    "C27_out_of_memory_refuted",
    "C27_group_closest_refuted",
    "C27_group_unnamed_refuted",
    "C27_init_pages",
    "C27_group_init"
   ],
   "note": "Invariant over every history; init for every size without overflow; layout/disjointness; destroy. Refuted side claims recorded: reported cache size, page_frees after release_free_pages, destroy not atomic, size overflow, alignment for sizes not multiple of 8, malloc failure unnoticed, group 'closest size', unnamed group descriptors."
  },
  {
   "property": "C28",
   "status": "proved",
   "theorems": [
    "C28_calls",
    "C28_memory",
    "C28_no_leak",
    "C28_order",
    "C28_subpool_leak_refuted",
    "C28_orphan_refuted",
    "C28_strdup_empty_refuted",
    "C28_add_result"
   ],
   "note": "every history with roots destroyed; refuted side cases: destroying one of several sub-pools leaks the others and leaves dangling parents; strdup of an empty string is not tracked. Block contents and sizes are not modelled"
  },
  {
   "property": "C29",
   "status": "partial",
   "theorems": [
    "C29_search_partial",
    "C29_search_iff_partial",
    "C29_within_address",
    "C29_addr_cmp",
    "C29_make_addr",
    "C29_str2net_partial",
    "C29_str2net_address_partial",
    "C29_str2net_long",
    "C29_search_overrun_refuted",
    "C29_negative_bitlen_refuted",
    "C29_garbage_is_any_refuted",
    "C29_short_address_overread_refuted"
   ],
   "note": "search is proved exact for every set of networks, every table size and every address, except that with all 32 prefix lengths present a miss overruns in[32] (refuted). Parsing: 'text/digits' proved; negative prefix, garbage prefix and short un-slashed address refuted."
  },
  {
   "property": "C30",
   "status": "partial",
   "theorems": [
    "C30_digest_partial",
    "C30_chunking_partial",
    "C30_data",
    "C30_large_update_refuted",
    "C30_tostr",
    "C30_text_roundtrip",
    "C30_tostr_unterminated_refuted"
   ],
   "note": "Digest = FIPS 180-4 SHA-1 of the concatenation, proved for every cutting with each update <= 2^32-64 bytes and total < 2^64 bits; zt_sha1_data for every length the assertion admits. Refuted: an update that with the pending bytes exceeds 2^32 overruns the context; zt_sha1_tostr does not terminate its text."
  },
  {
   "property": "C31",
   "status": "partial",
   "theorems": [
    "C31_update_partial",
    "C31_data_effect",
    "C31_data_refuted"
   ],
   "note": "Refuted in general: every complete block of the caller's data beyond the first block boundary is overwritten (exact effect proved). Proved unchanged when there is no such block."
  },
  {
   "property": "C32",
   "status": "proved",
   "theorems": [
    "C32_sequence",
    "C32_sequence_exists",
    "C32_deterministic",
    "C32_unseeded",
    "C32_initstate",
    "C32_array_seeded_exists",
    "C32_array_seeded_unique",
    "C32_initstate_empty_refuted"
   ],
   "note": "Every seed and number of draws: the MT19937 sequence; every non-empty seed array: the reference init_by_array (described as a sequence in RandArray.v, shown to determine the state). An empty array is read out of bounds (C32_initstate_empty_refuted)."
  },
  {
   "property": "C33",
   "status": "partial",
   "theorems": [
    "C33_tostr",
    "C33_roundtrip",
    "C33_injective",
    "C33_std_text",
    "C33_isvalid",
    "C33_fromstr_hex",
    "C33_fromstr_62",
    "C33_base62_unique_refuted",
    "C33_fromstr_rejects_refuted",
    "C33_fromstr_length",
    "C33_fromstr_memory_refuted",
    "C33_fromstr_blank_refuted",
    "C33_base62_safe",
    "C33_base62_rejects",
    "C33_fillstr_size",
    "C33_fillstr_partial",
    "C33_fillstr_refuted",
    "C33_uuid4",
    "C33_uuid4_unique_refuted",
    "C33_uuid5",
    "C33_uuid5_unknown",
    "C33_uuid5_value_refuted",
    "C33_cmp"
   ],
   "note": "Round trip in all four text formats for every UUID, exact text, validity, injectivity, version/variant bits of uuid4 in every history of calls and of uuid5 (= SHA-1), comparison = order of 128-bit numbers. Partial/refuted: fillstr aborts with a base62 buffer larger than 23; fromstr accepts invalid texts and reads uninitialised/over-end memory on some; base62 texts not unique; uuid4 not unique across threads in the same second; uuid5 modifies long values."
  },
  {
   "property": "C34",
   "status": "proved",
   "theorems": [
    "C34_numeral",
    "C34_numeral_unique",
    "C34_format",
    "C34_register",
    "C34_register_range",
    "C34_unknown_letter",
    "C34_sprintf",
    "C34_strprintf",
    "C34_fprintf",
    "C34_fprintf_count_refuted",
    "C34_never_beyond",
    "C34_number_like_printf",
    "C34_string_like_printf",
    "C34_int_max_refuted",
    "C34_int_min_refuted",
    "C34_sign_before_padding_refuted",
    "C34_left_string_refuted",
    "C34_plus_refuted",
    "C34_zero_precision_refuted",
    "C34_float_zeros_refuted",
    "C34_float_overflow_refuted",
    "C34_argument_kinds"
   ],
   "note": "Every format made of text, doubled control characters and directives (flags, width, precision, * arguments) and every fitting argument: any callback receives exactly the rendered characters; sprintf fits or stops, and for any format and arguments never changes a byte beyond the size given; strprintf is complete. INT_MAX and INT_MIN are excluded for %d (refuted: wrong digits, overflow). Comparison with C printf is proved where it holds and refuted elsewhere (sign before padding, no left padding of strings, + ignored, %.0d, zeros before %g, count of fprintf, %.99f overflow). Floating point digits are the C library's."
  },
  {
   "property": "C35",
   "status": "proved",
   "theorems": [
    "C35_last_assignment",
    "C35_reference",
    "C35_unknown",
    "C35_lookup_ends",
    "C35_set_int",
    "C35_set_string",
    "C35_set_bool",
    "C35_frame",
    "C35_file",
    "C35_last_line",
    "C35_open_header",
    "C35_parser_ends",
    "C35_self_reference_refuted",
    "C35_cycle_refuted",
    "C35_empty_value_refuted",
    "C35_long_block_refuted",
    "C35_last_line_refuted",
    "C35_open_header_refuted",
    "C35_quote_refuted",
    "C35_number_string_refuted",
    "C35_range_refuted",
    "C35_bool_result_refuted"
   ],
   "note": "Histories of assignments (files and zt_cfg_set), typed lookup, references, INI syntax. Findings kept as _refuted: self references and cycles make zt_cfg_get loop for ever; an empty value reads val[SIZE_MAX]; a block name of 1024+ characters leads to a NULL block name; a last line without newline and one-character value is refused; an unclosed header swallows the file; missing closing quote drops a character; numeric-looking strings cannot be read as strings; out-of-range integers are clamped silently; zt_cfg_get on a boolean returns 0 on success."
  },
  {
   "property": "C36",
   "status": "proved",
   "theorems": [
    "C36_command_line",
    "C36_table_checked",
    "C36_every_vector",
    "C36_rejects",
    "C36_handler_told",
    "C36_numbers",
    "C36_double_dash_refuted",
    "C36_attached_value_refuted",
    "C36_unknown_ignored_refuted",
    "C36_grouped_value_refuted",
    "C36_equal_in_value_refuted",
    "C36_empty_number_refuted",
    "C36_needs_long_name_refuted",
    "C36_returning_handler_refuted",
    "C36_argc_grows_refuted"
   ],
   "note": "Command lines made of the documented forms are applied exactly once and in order (any error handler); every argument vector is safe with the default handler; rejections proved. Findings kept as _refuted: no '--' terminator; letters of an attached value are parsed again as options; unknown letters after a known one are ignored; a grouped value option takes the group as its value; -oa=b stores b; empty numbers accepted; value option without long name dereferences NULL; a returning error handler leads to strtol(NULL) or *argc beyond argv."
  },
  {
   "property": "C37",
   "status": "proved",
   "theorems": [
    "C37_fifo",
    "C37_exactly_once",
    "C37_never_twice",
    "C37_outputs",
    "C37_mutual_exclusion",
    "C37_memory_safe",
    "C37_comes_to_rest",
    "C37_rest_means_done",
    "C37_thread_order",
    "C37_one_thread_in_order",
    "C37_inserted",
    "C37_finalize",
    "C37_never_wedged",
    "C37_jobs_can_finish"
   ],
   "note": "Interleaving model of both loops, insert_iput/oput, get_oput, kill over mutexes and condition variables (spurious wake-ups included), any number of threads and clients, any callback results; FIFO, exactly once, outputs, mutual exclusion, memory safety, per-thread order, boundedness and completeness at rest."
  },
  {
   "property": "C38",
   "status": "proved",
   "theorems": [
    "C38_kill_returns_last",
    "C38_drain_before_exit",
    "C38_shutdown_completes",
    "C38_comes_to_rest",
    "C38_accepted_jobs_are_finished",
    "C38_shutdown_terminates_refuted",
    "C38_outputs_delivered_refuted"
   ],
   "note": "Statement amended to what holds; the two negative theorems (_refuted) show the lost wake-up hang and the undelivered outputs of the code."
  },
  {
   "property": "C39",
   "status": "proved",
   "theorems": [
    "C39_filter",
    "C39_default",
    "C39_debug_once",
    "C39_logger",
    "C39_logger_none",
    "C39_level_opts",
    "C39_text",
    "C39_strerror_posix",
    "C39_strerror_failed",
    "C39_strerror_gnu_refuted",
    "C39_percent_refuted",
    "C39_history",
    "C39_close_default_twice",
    "C39_message"
   ],
   "note": "All calls of zt_log.c and the message text of log_private.c. Findings: C39_strerror_gnu_refuted (with the GNU strerror_r the Linux build selects, zt_log_lstrerror reads uninitialised memory), C39_percent_refuted (names containing % are interpreted as conversions), C39_close_default_twice. One thread; printf modelled by shape only."
  },
  {
   "property": "C40",
   "status": "proved",
   "theorems": [
    "C40_lifo",
    "C40_exactly_once",
    "C40_safe_no_leak",
    "C40_terminates",
    "C40_null"
   ],
   "note": "zt_atexit.c on the link heap of zt_list.h, with the C library's atexit/exit; callbacks may register more callbacks and libc handlers."
  },
  {
   "property": "C41",
   "status": "proved",
   "theorems": [
    "C41_calls",
    "C41_released_once",
    "C41_safety",
    "C41_protected_held",
    "C41_reported",
    "C41_black",
    "C41_full_exact",
    "C41_complete",
    "C41_complete_idle",
    "C41_destroy",
    "C41_disabled",
    "C41_protect_refuted",
    "C41_mark_refuted",
    "C41_unregister_refuted",
    "C41_unregister_never_collects_refuted",
    "C41_pace",
    "C41_bounded_pause",
    "C41_first_registrations"
   ],
   "note": "all histories of the stated calls; refuted without the restrictions: protect, mark or unregister during a half-way incremental collection lose live objects or walk off the list; unregister never starts a collection. The intrusive lists are modelled as lists (C24 covers the links)"
  },
  {
   "property": "C42",
   "status": "proved",
   "theorems": [
    "C42_find_basedir",
    "C42_find_basedir_long_refuted",
    "C42_mkdir_creates",
    "C42_mkdir_safe",
    "C42_mkdir_single",
    "C42_mkdir_existing",
    "C42_path_exists_answers",
    "C42_path_exists",
    "C42_mkdir_blocked",
    "C42_empty_path_hangs_refuted",
    "C42_denied_target_hangs_refuted",
    "C42_file_in_the_way_refuted"
   ],
   "note": "zt_find_basedir: for every existence predicate, the longest directory of the path holding the trigger. zt_mkdir: with parents, whenever possible, exactly the missing directories are made; safety for every file system state; -1 when an intermediate directory is refused. Refuted side claims (findings): an empty path or a refused target hangs; a regular file in the way counts as success; a path longer than PATH_MAX is UB in zt_find_basedir. No symbolic links, no concurrent changes."
  },
  {
   "property": "C43",
   "status": "proved",
   "theorems": [
    "C43_suite",
    "C43_run",
    "C43_balance",
    "C43_status",
    "C43_by_name_suite",
    "C43_by_name_test",
    "C43_by_name_dots",
    "C43_by_name_refuted",
    "C43_status_by_names",
    "C43_by_name_balance_refuted",
    "C43_rerun_assertions_refuted",
    "C43_program",
    "C43_info"
   ],
   "note": "Findings: C43_by_name_refuted (names \"\", \".\", \"suite.\" and \".suite\" give strlen(NULL)), C43_by_name_balance_refuted (a test run by name is not counted as a test), C43_rerun_assertions_refuted. Test functions are lists of assertions; the C++ try function and the YAML text are not modelled."
  },
  {
   "property": "C44",
   "status": "proved",
   "theorems": [
    "C44_clamp",
    "C44_bounds",
    "C44_bits",
    "C44_isset",
    "C44_isunset"
   ],
   "note": ""
  },
  {
   "property": "C45",
   "status": "partial",
   "theorems": [
    "C45_zt_time_actual_partial",
    "C45_no_function",
    "C45_zt_time_calls_refuted",
    "C45_int_max_refuted"
   ],
   "note": "For 0 < n < INT_MAX the function is called n+1 times (proved); the claim n times is refuted; n = INT_MAX overflows the counter (C45_int_max_refuted)."
  },
  {
   "property": "C46",
   "status": "proved",
   "theorems": [
    "C46_wrap",
    "C46_short",
    "C46_long_word_refuted"
   ],
   "note": "wrap covers the loop of _zt_opt_help_stdout_printer. Finding: a word of 50 or more characters makes it read before the text or print for ever (C46_long_word_refuted)."
  },
  {
   "property": "C47",
   "status": "partial",
   "theorems": [
    "C47_progname",
    "C47_progname_strip_partial",
    "C47_query",
    "C47_initial",
    "C47_absolute_partial",
    "C47_relative_partial",
    "C47_search_partial",
    "C47_no_path_partial",
    "C47_last_directory_refuted",
    "C47_empty_directory_refuted",
    "C47_root_refuted",
    "C47_aborts_refuted"
   ],
   "note": "proved for names and directories that fit the buffer (C47_*_partial); the last PATH directory without trailing separator, empty PATH entries, programs in / are refuted"
  },
  {
   "property": "C48",
   "status": "partial",
   "theorems": [
    "C48_daemon",
    "C48_failures",
    "C48_status_refuted",
    "C48_unlimited_refuted",
    "C48_null_refuted"
   ],
   "note": "Full effect for every descriptor limit from 3 to 2^31 and every failure of fork, setsid, getrlimit and chdir. Refuted parts: with a higher (or no) limit the call hangs; the caller's exit status is 0 although there is no daemon; if /dev/null cannot be opened the call still returns 0, with no standard descriptors."
  },
  {
   "property": "C49",
   "status": "partial",
   "theorems": [
    "C49_writepid",
    "C49_untouched",
    "C49_interrupted",
    "C49_close_refuted"
   ],
   "note": "Return value and file content for every pattern of interruptions, short writes and failures. Refuted part: an interrupted close is repeated, and where the first call already released the descriptor the function reports failure for a complete file."
  },
  {
   "property": "C50",
   "status": "proved",
   "theorems": [
    "C50_assertion",
    "C50_abort",
    "C50_macros",
    "C50_zt_abort",
    "C50_long_name_refuted"
   ],
   "note": "Every file whose base name is shorter than PATH_MAX; a longer one is read beyond the local array (C50_long_name_refuted)."
  },
  {
   "property": "C51",
   "status": "partial",
   "theorems": [
    "C51_blocks",
    "C51_failures",
    "C51_calloc_overflow",
    "C51_strdup",
    "C51_overflow_refuted",
    "C51_shrink_refuted"
   ],
   "note": "Sizes whose product fits size_t. Refuted: zt_malloc and zt_realloc multiply without overflow check and return blocks that are too small; zt_realloc(p, 0) aborts although there is memory (glibc)."
  },
  {
   "property": "C52",
   "status": "partial",
   "theorems": [
    "C52_tables",
    "C52_dispatch",
    "C52_pool_start",
    "C52_pool",
    "C52_finalize_refuted",
    "C52_pthreads_lock",
    "C52_pthreads_signal",
    "C52_wait"
   ],
   "note": "Every history of table calls, dispatch, pthreads mapping. Refuted part: zt_threadpool_set_callbacks(NULL) keeps the finalizer."
  },
  {
   "property": "C53",
   "status": "partial",
   "theorems": [
    "C53_init",
    "C53_init_refuted",
    "C53_signals",
    "C53_full_pipe_refuted",
    "C53_failed_insert_refuted",
    "C53_write_fails",
    "C53_kill_answer",
    "C53_start_kill",
    "C53_kill_byte_refuted",
    "C53_start_refuted",
    "C53_toggle_refuted"
   ],
   "note": "Signals, order, start and stop for every history. Refuted: a failing output pipe closes descriptor 0 twice and leaks the input pipe; failing thread starts are not noticed and kill then joins threads that do not exist; a full pipe blocks the insertion while it holds the lock; an insertion reporting failure was made; the kill byte of the input side is the thread count mod 256; setting the output loop after init writes through NULL."
  },
  {
   "property": "C54",
   "status": "proved",
   "theorems": [
    "C54_vasprintf",
    "C54_asprintf"
   ],
   "note": "Exact: success exactly when there is memory and the text fits; no leak in any case."
  },
  {
   "property": "C55",
   "status": "partial",
   "theorems": [
    "C55_vsyslog_partial",
    "C55_overrun_refuted",
    "C55_output_refuted",
    "C55_percent_refuted",
    "C55_error_text"
   ],
   "note": "Proved when the expansion at most doubles the format, the output is at most six times as long and the format has no %%m. Refuted otherwise: an error text longer than the format plus 2 overruns the buffer, long output overruns the other buffer, %%m is replaced."
  },
  {
   "property": "C56",
   "status": "proved",
   "theorems": [
    "C56_basename"
   ],
   "note": "Every path."
  },
  {
   "property": "C57",
   "status": "partial",
   "theorems": [
    "C57_usage",
    "C57_width",
    "C57_nameless",
    "C57_separator_refuted",
    "C57_no_help_refuted"
   ],
   "note": "Exact output for every table whose help texts have words below 50 bytes. Refuted: names of exactly 30 bytes run into the text, longer ones shift the column (exact behaviour proved); an entry without help text is undefined behaviour."
  },
  {
   "property": "C58",
   "status": "partial",
   "theorems": [
    "C58_message",
    "C58_default",
    "C58_handler",
    "C58_status",
    "C58_help",
    "C58_help_status_refuted",
    "C58_help_nameless",
    "C58_status_refuted"
   ],
   "note": "Exact message, handler and help. Refuted: help exits with status 255; a code that is a multiple of 256 exits with 0."
  },
  {
   "property": "C59",
   "status": "partial",
   "theorems": [
    "C59_get",
    "C59_destroy",
    "C59_hook",
    "C59_exit",
    "C59_no_memory",
    "C59_name_refuted"
   ],
   "note": "Proved for every history when malloc finds memory for the copies of the names (C59_get, C59_destroy, C59_hook, C59_exit, C59_no_memory); refuted when the copy of a name fails: C59_name_refuted."
  },
  {
   "property": "C60",
   "status": "partial",
   "theorems": [
    "C60_stats",
    "C60_display",
    "C60_group_init",
    "C60_group_back_out_refuted",
    "C60_group_first_refuted",
    "C60_group_destroy",
    "C60_group_short_refuted",
    "C60_heap",
    "C60_heap_refuted"
   ],
   "note": "Figures, group creation without failures, group destruction and heaps are proved; refuted: a creation that fails at a later pool leaves the first pool behind (C60_group_back_out_refuted), at the first pool is undefined behaviour (C60_group_first_refuted), a group with unnamed descriptors cannot be destroyed (C60_group_short_refuted), heap sizes near 2^64 (C60_heap_refuted)."
  },
  {
   "property": "C61",
   "status": "partial",
   "theorems": [
    "C61_history",
    "C61_new",
    "C61_apart",
    "C61_set",
    "C61_del",
    "C61_destroy",
    "C61_gentle",
    "C61_leak_refuted",
    "C61_foreign_pool_refuted"
   ],
   "note": "proved for every program on any number of tables: no undefined behaviour, own elements of sufficient size, separate pools, exact effect of set, del and destroy on the elements in use, no leak for programs that delete only from the first two places of a chain. The full claim is false: C61_leak_refuted (zt_table_del drops nodes without releasing them; the node pool survives the table and the exit handler), C61_foreign_pool_refuted."
  },
  {
   "property": "C62",
   "status": "partial",
   "theorems": [
    "C62_set",
    "C62_get",
    "C62_del",
    "C62_history",
    "C62_each_look",
    "C62_each_insert",
    "C62_each_delete",
    "C62_copy_itself_once",
    "C62_copy_itself_dup",
    "C62_delete_other_refuted",
    "C62_delete_some_refuted"
   ],
   "note": "proved: refinement of the list model of C19/C20 by nodes in memory for every program and allocator (C62_history and per function), callbacks that look, that add any bindings, that delete the key they are given every time, and copying a table onto itself. The full claim is false: C62_delete_other_refuted (use of a released node), C62_delete_some_refuted (a binding that was not deleted is lost; zt_table_del's bug of C19)."
  },
  {
   "property": "C63",
   "status": "partial",
   "theorems": [
    "C63_union",
    "C63_union_aliased",
    "C63_intersection",
    "C63_difference",
    "C63_intersection_in_place",
    "C63_difference_in_place",
    "C63_difference_into_second",
    "C63_is_subset",
    "C63_is_equal",
    "C63_history",
    "C63_destroy",
    "C63_union_in_place_refuted",
    "C63_intersection_in_place_refuted",
    "C63_difference_in_place_refuted",
    "C63_destroyed_twice_refuted"
   ],
   "note": "proved for every program, any coincidence of arguments, every allocator: no undefined behaviour, termination, proper sets, exact effect of each operation, correct union under stated conditions, subset and equality exact, destroy calls the function once per member. The full claim is false: C63_union_in_place_refuted, C63_intersection_in_place_refuted, C63_difference_in_place_refuted (universally: C63_intersection_in_place, C63_difference_in_place, C63_difference_into_second), C63_destroyed_twice_refuted. zt_set_remove is treated in C21."
  },
  {
   "property": "C64",
   "status": "partial",
   "theorems": [
    "C64_history",
    "C64_all_freed",
    "C64_nothing_dropped",
    "C64_set_data_leak_refuted",
    "C64_truncate_leak_refuted",
    "C64_reference",
    "C64_no_data",
    "C64_static_data",
    "C64_shared_data",
    "C64_reference_resize",
    "C64_set_own_array"
   ],
   "note": "Proved: every program on arrays and streams that is right on values runs in memory with the same answers for every allocator, with exact counts of what is left allocated (C64_history, C64_all_freed, C64_nothing_dropped), and the by-reference behaviour. Violated by the code: set_data and growth after truncation leak (C64_set_data_leak_refuted, C64_truncate_leak_refuted); static or shared data and a stream's own array end in undefined behaviour (C64_static_data, C64_shared_data, C64_reference_resize, C64_set_own_array). Allocation failure is not modelled."
  },
  {
   "property": "C65",
   "status": "partial",
   "theorems": [
    "C65_history",
    "C65_unused",
    "C65_bigger_refuted",
    "C65_search_refuted",
    "C65_bad_text_refuted"
   ],
   "note": "Proved: every program in which no table is larger than an older one answers as if each table were alone, for every allocator, with exact counts of the elements that stay in use (C65_history); tables never used leave no pool (C65_unused). Violated by the code: after any such history that added a network, adding to a larger table is undefined (C65_bigger_refuted); searches and bad texts leak (C65_search_refuted, C65_bad_text_refuted). Allocation failure is not modelled."
  },
  {
   "property": "C66",
   "status": "partial",
   "theorems": [
    "C66_history",
    "C66_all_closed",
    "C66_load",
    "C66_dangling",
    "C66_overwrite_refuted",
    "C66_refused_refuted",
    "C66_failed_load_refuted"
   ],
   "note": "all programs on any number of configurations run in memory as on values, handed-out strings stay readable while the configuration is open, and the blocks left are counted exactly; violated: replaced strings, refused booleans and failed loads are never freed (C66_*_refuted); a string read after close is UB (C66_dangling)"
  },
  {
   "property": "C67",
   "status": "partial",
   "theorems": [
    "C67_history",
    "C67_all_freed",
    "C67_duplicate_refuted",
    "C67_move_refuted",
    "C67_shared_refuted",
    "C67_del_twice_refuted"
   ],
   "note": "all programs in which a member is freed once, when no array holds it, run in memory as on lists of members, with an exact count of the blocks left; violated: free with members after move, after cat, delete of a duplicate with callback (C67_*_refuted)"
  },
  {
   "property": "C68",
   "status": "partial",
   "theorems": [
    "C68_history",
    "C68_all_freed",
    "C68_add_after_drain",
    "C68_reserve_refuted",
    "C68_self_refuted",
    "C68_dangling_refuted"
   ],
   "note": "all programs in which no drained buffer outgrows its block run in memory as on byte strings, pointers show their bytes until growth or emptying, exact count of blocks, exact condition for an addition after a drain; violated: growth after a drain, reserve without effect, a buffer added to itself, pointers after growth (C68_*_refuted)"
  },
  {
   "property": "C69",
   "status": "partial",
   "theorems": [
    "C69_elapsed",
    "C69_calibrate",
    "C69_calibrate_refuted",
    "C69_usleep",
    "C69_usleep_sum_refuted"
   ],
   "note": "proved for every history of timings and calibrations and every clock (C69_elapsed, C69_calibrate); violated: calibration never has an effect (C69_calibrate_refuted), usleep of a sum (C69_usleep_sum_refuted)"
  },
  {
   "property": "C70",
   "status": "partial",
   "theorems": [
    "C70_lines",
    "C70_dump_partial",
    "C70_note",
    "C70_15_refuted",
    "C70_default",
    "C70_str",
    "C70_str_255_refuted",
    "C70_str_high_refuted"
   ],
   "note": "Exact for every reader, callback and byte sequence whose length is not 15 modulo 16 (C70_dump_partial, C70_note, C70_default, C70_str); C70_15_refuted, C70_str_255_refuted and C70_str_high_refuted are the violations."
  },
  {
   "property": "C71",
   "status": "proved",
   "theorems": [
    "C71_float",
    "C71_float00",
    "C71_float10",
    "C71_history"
   ],
   "note": "All generator states and numbers; C71_history for every seed and history."
  },
  {
   "property": "C72",
   "status": "partial",
   "theorems": [
    "C72_elapsed",
    "C72_hundredths_refuted",
    "C72_seconds_refuted"
   ],
   "note": "Relative error bounds proved for all times (C72_elapsed); the two digits printed are refuted for long times."
  },
  {
   "property": "C73",
   "status": "partial",
   "theorems": [
    "C73_bits",
    "C73_serial",
    "C73_exit_refuted",
    "C73_end_refuted",
    "C73_same_refuted",
    "C73_first_refuted",
    "C73_busy"
   ],
   "note": "Proved: the bits for every schedule; calls one after the other = C33; no undefined behaviour in the 620 steps after a first call, in any number of threads. Refuted: same UUID twice, reads past the end, use after free. Missing: weak memory; a bound-free characterisation of the schedules that are safe."
  },
  {
   "property": "C74",
   "status": "partial",
   "theorems": [
    "C74_messages",
    "C74_default_once",
    "C74_handed_on",
    "C74_progress",
    "C74_terminates",
    "C74_lost_message_refuted",
    "C74_lost_logger_refuted",
    "C74_closed_refuted",
    "C74_returned_twice_refuted"
   ],
   "note": "Every schedule of any number of threads that print and install; progress and termination for all programs. Refuted: messages lost when the default is uninstalled meanwhile, an installation undone by a concurrent close, a logger returned twice, use of a closed logger. Sequentially consistent memory; one print is one step."
  },
  {
   "property": "C75",
   "status": "partial",
   "theorems": [
    "C75_report",
    "C75_readable",
    "C75_nothing_lost",
    "C75_column",
    "C75_quotes",
    "C75_release_refuted",
    "C75_yaml_refuted",
    "C75_column_refuted",
    "C75_why_refuted",
    "C75_readable_refuted",
    "C75_thrown_text_refuted"
   ],
   "note": "Proved for every history: no undefined behaviour, exact report, exact memory, readable verdicts, nothing lost if nothing runs twice. Refuted: C75_release_refuted (texts lost), C75_yaml_refuted (apostrophes), C75_column_refuted (long names), C75_why_refuted (test run by name), C75_readable_refuted (newlines in names), C75_thrown_text_refuted (string literals thrown). Not modelled: allocation failure, output of setup and teardown functions."
  },
  {
   "property": "C76",
   "status": "partial",
   "theorems": [
    "C76_threads",
    "C76_apart",
    "C76_returns",
    "C76_lost_refuted",
    "C76_exit_refuted"
   ],
   "note": "Safety, LIFO order, at-most-once, last-first and bounded steps proved for every schedule, completeness for schedules without overlap; that no callback is lost and that exit may overlap a registration are refuted. Sequential consistency assumed; callbacks at exit register nothing."
  },
  {
   "property": "C77",
   "status": "partial",
   "theorems": [
    "C77_split",
    "C77_cut",
    "C77_tok",
    "C77_enough",
    "C77_lost_refuted",
    "C77_copy_refuted",
    "C77_array",
    "C77_string",
    "C77_string_refuted",
    "C77_buf_fits",
    "C77_buf_enough",
    "C77_buf_add_refuted",
    "C77_buf_room",
    "C77_buf_reserve_refuted"
   ],
   "note": "Exact effect of every pattern of refusals; that an incomplete result is reported, that the copy may be refused, that repeated options do not leak and that a buffer survives a refused growth are refuted."
  },
  {
   "property": "C78",
   "status": "proved",
   "theorems": [
    "C78_queues",
    "C78_pool",
    "C78_twice_refuted",
    "C78_self_refuted"
   ],
   "note": "the two refuted theorems say what happens outside the conditions of use"
  },
  {
   "property": "C79",
   "status": "partial",
   "theorems": [
    "C79_splay",
    "C79_remove_refuted",
    "C79_next_refuted"
   ],
   "note": "Proved for every history of allowed calls. Refuted: the answer of a removal by an equal element, and the successor of an equal element outside the tree."
  },
  {
   "property": "C80",
   "status": "proved",
   "theorems": [
    "C80_lists",
    "C80_disjoint",
    "C80_same",
    "C80_remove_absent",
    "C80_remove_empty",
    "C80_twice_refuted"
   ],
   "note": "every macro of the three families; the deviations outside the contract are universally quantified"
  },
  {
   "property": "C81",
   "status": "proved",
   "theorems": [
    "C81_lists",
    "C81_disjoint",
    "C81_twice_refuted",
    "C81_remove_twice_refuted"
   ],
   "note": "every macro of the family"
  },
  {
   "property": "C82",
   "status": "proved",
   "theorems": [
    "C82_queues",
    "C82_disjoint",
    "C82_both_ways",
    "C82_twice_refuted",
    "C82_wrong_queue"
   ],
   "note": "every macro of the family; the wrong head is universally quantified"
  },
  {
   "property": "C83",
   "status": "proved",
   "theorems": [
    "C83_history",
    "C83_from_init",
    "C83_prev",
    "C83_inverse",
    "C83_foreach",
    "C83_empty",
    "C83_null",
    "C83_readonly"
   ],
   "note": "All histories of the macro calls on all trees; RB_INSERT, RB_REMOVE, RB_FIND, RB_NFIND and RB_MINMAX are the same text as zt_tree.c and share its model."
  },
  {
   "property": "C84",
   "status": "proved",
   "theorems": [
    "C84_all",
    "C84_found",
    "C84_none",
    "C84_null",
    "C84_unterminated",
    "C84_open_delim",
    "C84_fields"
   ],
   "note": "Every string, separator set and surrounding memory; the loop to the end."
  },
  {
   "property": "C85",
   "status": "partial",
   "theorems": [
    "C85_split",
    "C85_null",
    "C85_count_refuted",
    "C85_by_name"
   ],
   "note": "Proved for every string and separator string; the number of strings is refuted, exactly when some field is empty (C85_count_refuted)."
  },
  {
   "property": "C86",
   "status": "partial",
   "theorems": [
    "C86_fresh_partial",
    "C86_twice_refuted",
    "C86_two_tables_refuted",
    "C86_lost_refuted"
   ],
   "note": "Proved for every program that adds each node once, fresh; refuted for nodes added twice or to two tables."
  }
 ]
}