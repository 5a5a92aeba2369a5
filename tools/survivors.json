[
 {
  "file": "TpModel",
  "def": "step",
  "match": "Some s1",
  "tightened": [
   "C37_finalize",
   "C37_inserted"
  ],
  "note": "survived the first time; no theorem spoke about the finalize callback"
 },
 {
  "file": "BufModel",
  "def": "W64",
  "equivalent": true,
  "note": "only bounds sizes that the theorems assume to be below 2^64"
 },
 {
  "file": "ArrayModel",
  "def": "W64",
  "note": "the statements now name 18446744073709551616, not the constant of the model",
  "tightened": [
   "C17_new",
   "C17_resize",
   "C17_copy",
   "C17_with",
   "C17_with_cstr",
   "C18_roundtrip",
   "C18_set_data"
  ]
 },
 {
  "file": "Ipv4Model",
  "def": "str2net",
  "tightened": [
   "C29_str2net_address_partial",
   "C29_str2net_long"
  ],
  "note": "the un-slashed form was only covered by examples"
 },
 {
  "file": "TableModel",
  "def": "lower",
  "tightened": [
   "C19_string_case_compare"
  ],
  "note": "the case-insensitive comparison was only covered by a counterexample"
 },
 {
  "file": "ArrayModel",
  "def": "bs_set_data",
  "tightened": [
   "C18_set_data",
   "C18_set_array"
  ],
  "note": "no theorem about replacing the data of a stream"
 },
 {
  "file": "ArrayModel",
  "def": "bs_truncate",
  "tightened": [
   "C18_truncate_partial"
  ],
  "note": "truncate only occurred in a counterexample"
 },
 {
  "file": "ArrayModel",
  "def": "array_with_cstr",
  "tightened": [
   "C17_with_cstr"
  ],
  "note": "with_cstr only occurred in a counterexample"
 },
 {
  "file": "PathModel",
  "def": "ends_slash",
  "tightened": [
   "C42_path_exists"
  ],
  "note": "the statement used the model's own ends_slash; now it says no prefix q with path = q ++ slash"
 },
 {
  "file": "SetModel",
  "def": "elt_hash",
  "equivalent": true,
  "note": "default of a match whose other cases do not occur (hashing an int key cannot fail)"
 },
 {
  "file": "SetModel",
  "def": "callback",
  "equivalent": true,
  "note": "any non-zero code stops the iteration and the failing outcome is carried separately"
 },
 {
  "file": "UnitModel",
  "def": "unit_init",
  "tightened": [
   "C43_program"
  ],
  "note": "the totals of a whole program, starting from zt_unit_init, are now stated"
 },
 {
  "file": "UnitModel",
  "def": "register_suite",
  "tightened": [
   "C43_program"
  ],
  "note": "same: totals starting from registration"
 },
 {
  "file": "UnitModel",
  "def": "register_test",
  "tightened": [
   "C43_program"
  ],
  "note": "same: totals starting from registration"
 },
 {
  "file": "UnitModel",
  "def": "info_opts",
  "tightened": [
   "C43_info"
  ],
  "note": "the option texts were only used through the model's own list"
 },
 {
  "file": "Ipv4Model",
  "def": "tbl_init",
  "equivalent": true,
  "note": "default pool growth size, no observable effect besides memory use"
 },
 {
  "file": "Ipv4Model",
  "def": "atoi",
  "equivalent": true,
  "note": "overflow boundary of atoi for a signed text: such octets and masks are outside the claim (numbers up to 255 and 32)"
 },
 {
  "file": "GcModel",
  "def": "gc_init",
  "match": "al marks",
  "tightened": [
   "C41_pace"
  ],
  "note": "nothing was said about when collections happen"
 },
 {
  "file": "GcModel",
  "def": "gc_init",
  "match": "true) (fun",
  "equivalent": true,
  "note": "mark bits of objects not yet registered; registering resets them"
 },
 {
  "file": "GcModel",
  "def": "gc_enable",
  "match": "",
  "tightened": [
   "C41_pace"
  ],
  "note": "killed by a structural lemma only; C41_pace now states when a pending collection runs"
 },
 {
  "file": "GcModel",
  "def": "gc_destroy",
  "equivalent": true,
  "note": "any non-zero value disables"
 },
 {
  "file": "BufModel",
  "def": "realloc",
  "equivalent": true,
  "note": "the offset is never negative"
 },
 {
  "file": "BufModel",
  "def": "buf_get",
  "equivalent": true,
  "note": "the length is never negative"
 },
 {
  "file": "TableModel",
  "def": "nbits",
  "equivalent": true,
  "note": "more fuel than needed"
 },
 {
  "file": "MemModel",
  "def": "calculate",
  "tightened": [
   "C27_init_pages"
  ],
  "note": "the number of pages a new pool starts with was not stated"
 },
 {
  "file": "MemModel",
  "def": "group_init",
  "tightened": [
   "C27_group_init"
  ],
  "note": "group_init only occurred in a counterexample"
 },
 {
  "file": "IntModel",
  "def": "ucvbits",
  "equivalent": true,
  "note": "the product of two such operands never reaches the wider modulus"
 },
 {
  "file": "TpModel",
  "def": "waits",
  "equivalent": true,
  "note": "symmetric comparison"
 },
 {
  "file": "TpModel",
  "def": "run",
  "tightened": [
   "C37_never_wedged",
   "C37_jobs_can_finish"
  ],
  "note": "with no execution at all every 'for every reachable state' theorem holds vacuously; only the examples noticed"
 },
 {
  "file": "TableModel",
  "def": "pick_size",
  "tightened": [
   "C19_huge_hint_refuted"
  ],
  "note": "hints above the size table were not covered; the counterexample for them is now stated"
 },
 {
  "file": "PathModel",
  "def": "PATH_MAX",
  "equivalent": true,
  "note": "platform constant; the theorems hold for the value the model uses"
 },
 {
  "file": "PtrArrayModel",
  "def": "I32MAX",
  "tightened": [
   "C15_resize",
   "C15_resize_negative",
   "C15_cat"
  ],
  "note": "the statements used the model's constant; they now say 2147483647"
 },
 {
  "file": "AtexitModel",
  "def": "start",
  "equivalent": true,
  "note": "an unused heap address"
 },
 {
  "file": "PtrArrayModel",
  "def": "cat_loop",
  "equivalent": true,
  "note": "adding never fails in the model (allocation failure is not modelled), so this code is not returned"
 },
 {
  "file": "SetModel",
  "def": "set_init",
  "equivalent": true,
  "note": "both hints select 256 buckets"
 },
 {
  "file": "ArrayModel",
  "def": "bs_is_empty",
  "equivalent": true,
  "note": "the length is never negative"
 },
 {
  "file": "LogModel",
  "def": "no_dbg",
  "tightened": [
   "C39_filter",
   "C39_debug_once"
  ],
  "note": "the statements used the model constant no_dbg; now the literal triple"
 },
 {
  "file": "LogModel",
  "def": "init",
  "tightened": [
   "C39_debug_once"
  ],
  "note": "the initial debug information was not stated"
 },
 {
  "file": "LogModel",
  "def": "no_capture",
  "tightened": [
   "C39_strerror_failed",
   "C39_strerror_gnu_refuted"
  ],
  "note": "the text now is a string literal of the specification"
 },
 {
  "file": "LogModel",
  "def": "log_crit",
  "tightened": [
   "C39_strerror_failed",
   "C39_strerror_gnu_refuted"
  ],
  "note": "the level of the extra message was not stated"
 },
 {
  "file": "LogModel",
  "def": "level_desc",
  "tightened": [
   "C39_text",
   "C39_filter"
  ],
  "note": "the level names now are string literals of the specification"
 },
 {
  "file": "UuidModel",
  "def": "fromstr",
  "tightened": [
   "C33_fromstr_length"
  ],
  "note": "no theorem about the refusal of unknown formats"
 },
 {
  "file": "UuidModel",
  "def": "ns_bytes",
  "tightened": [
   "C33_uuid5"
  ],
  "note": "the namespaces now are the literals of RFC 4122"
 },
 {
  "file": "UuidModel",
  "def": "isspace",
  "tightened": [
   "C33_fromstr_blank_refuted"
  ],
  "note": "white space other than blanks only occurred in an example"
 },
 {
  "file": "UuidModel",
  "def": "le4",
  "tightened": [
   "C33_uuid4"
  ],
  "note": "the bytes of a random number now are specified by shifts"
 },
 {
  "file": "CfgModel",
  "def": "bounded",
  "tightened": [
   "C35_set_string"
  ],
  "note": "the cut at 1023 characters was stated through the model function"
 },
 {
  "file": "CfgModel",
  "def": "code",
  "tightened": [
   "C35_last_assignment"
  ],
  "note": "the type codes now are literals"
 },
 {
  "file": "CfgModel",
  "def": "global",
  "tightened": [
   "C35_file"
  ],
  "note": "the name of the global block now is a literal"
 },
 {
  "file": "CfgModel",
  "def": "ends_newline",
  "tightened": [
   "C35_last_line"
  ],
  "note": "no theorem about the last line of a file without newline"
 },
 {
  "file": "CfgModel",
  "def": "read_block",
  "equivalent": true,
  "note": "nothing can follow the end of the file, so the block is refused either way"
 },
 {
  "file": "OptsModel",
  "def": "w_no",
  "tightened": [
   "C36_command_line"
  ],
  "note": "the statements used the model constants and setters; now spec-side literals and stores"
 },
 {
  "file": "OptsModel",
  "def": "w_yes",
  "tightened": [
   "C36_command_line"
  ],
  "note": "the statements used the model constants and setters; now spec-side literals and stores"
 },
 {
  "file": "OptsModel",
  "def": "w_false",
  "tightened": [
   "C36_command_line"
  ],
  "note": "the statements used the model constants and setters; now spec-side literals and stores"
 },
 {
  "file": "OptsModel",
  "def": "set_str",
  "equivalent": true,
  "note": "equality is symmetric",
  "match": "Nat.eqb k j"
 },
 {
  "file": "OptsModel",
  "def": "set_str",
  "tightened": [
   "C36_command_line"
  ],
  "note": "the statements used the model constants and setters; now spec-side literals and stores"
 },
 {
  "file": "OptsModel",
  "def": "set_int",
  "tightened": [
   "C36_command_line"
  ],
  "note": "the statements used the model constants and setters; now spec-side literals and stores"
 },
 {
  "file": "OptsModel",
  "def": "EINVAL",
  "tightened": [
   "C36_handler_told"
  ],
  "note": "the error codes given to the handlers were not stated"
 },
 {
  "file": "OptsModel",
  "def": "ERANGE",
  "tightened": [
   "C36_handler_told"
  ],
  "note": "the error codes given to the handlers were not stated"
 },
 {
  "file": "OptsModel",
  "def": "matches",
  "equivalent": true,
  "note": "a valid table has no empty short name"
 },
 {
  "file": "OptsModel",
  "def": "wrap",
  "equivalent": true,
  "note": "differs only in the region of C46_long_word_refuted (which changed), outside the claim"
 },
 {
  "file": "RandModel",
  "def": "mag01",
  "equivalent": true,
  "note": "the argument is a bit, never negative"
 },
 {
  "file": "CstrModel",
  "def": "zt_hex_to_binary",
  "equivalent": true,
  "note": "a string longer than 2^64 - 2 bytes does not exist"
 },
 {
  "file": "CstrModel",
  "def": "zt_cstr_pos",
  "equivalent": true,
  "note": "the index computed before the assertion is below the length whenever it is not negative"
 },
 {
  "file": "CstrModel",
  "def": "zt_cstr_sub",
  "equivalent": true,
  "note": "exactly n characters are copied, so room for n is enough for the copy loop",
  "match": "(n + 0) []"
 },
 {
  "file": "CstrModel",
  "def": "schar",
  "tightened": [
   "C10_chr_partial",
   "C10_rchr_partial"
  ],
  "note": "the statements used the model function schar; now char_is"
 },
 {
  "file": "FormatModel",
  "def": "INT_MIN",
  "tightened": [
   "C34_format"
  ],
  "note": "the statements used the model constants; now literals"
 },
 {
  "file": "FormatModel",
  "def": "INT_MAX",
  "tightened": [
   "C34_format"
  ],
  "note": "the statements used the model constants; now literals"
 },
 {
  "file": "FormatModel",
  "def": "two32",
  "tightened": [
   "C34_format"
  ],
  "note": "the statements used the model constants; now literals"
 },
 {
  "file": "FormatModel",
  "def": "signed8",
  "tightened": [
   "C34_format"
  ],
  "note": "the statements used the model function; now as_char"
 },
 {
  "file": "FormatModel",
  "def": "cvt_x",
  "equivalent": true,
  "note": "fuel of a loop that needs at most 16 rounds"
 },
 {
  "file": "RbtModel",
  "def": "empty",
  "equivalent": true,
  "note": "the only theorem about zt_rbt_empty is C26_empty_refuted, which failed as it should"
 },
 {
  "file": "GcModel",
  "def": "gc_for_each",
  "tightened": [
   "C41_reported"
  ],
  "note": "no theorem said which colour each object is reported with"
 },
 {
  "file": "Sha1Model",
  "def": "word_le",
  "tightened": [
   "C31_data_effect"
  ],
  "note": "the statement used the model function; now little_endian"
 },
 {
  "file": "UuidModel",
  "def": "isspace",
  "note": "found by the counterexample theorems about blanks, which failed as they should"
 },
 {
  "file": "CfgModel",
  "def": "read_block",
  "equivalent": true,
  "note": "at the end of the file the block name is not used any more; C35_open_header added all the same"
 },
 {
  "file": "CstrModel",
  "def": "bput",
  "equivalent": true,
  "note": "same bytes"
 },
 {
  "file": "UuidModel",
  "def": "snprintf",
  "equivalent": true,
  "note": "size 0 cannot be reached: the callers check or choose the size"
 },
 {
  "file": "PathModel",
  "def": "zt_path_exists",
  "tightened": [
   "C42_path_exists_answers"
  ],
  "note": "the value for a missing file was not stated"
 },
 {
  "file": "MemModel",
  "def": "u64",
  "note": "found by C27_overflow_refuted, which failed as it should"
 },
 {
  "file": "UuidModel",
  "def": "fromstr",
  "tightened": [
   "C33_base62_rejects"
  ],
  "note": "the result for a text that is not base 62 was not stated"
 },
 {
  "file": "FormatModel",
  "def": "isdigit",
  "tightened": [
   "C34_unknown_letter",
   "C34_register"
  ],
  "note": "the statements used the model function; now literal bounds"
 },
 {
  "file": "UuidModel",
  "def": "memcmp",
  "equivalent": true,
  "note": "only the sign of the result is specified"
 },
 {
  "file": "UuidModel",
  "def": "cmp",
  "equivalent": true,
  "note": "a UUID has 16 bytes"
 },
 {
  "file": "TableModel",
  "def": "nbits_loop",
  "equivalent": true,
  "note": "the shifted value is never negative"
 },
 {
  "file": "CstrModel",
  "def": "CONVERT",
  "equivalent": true,
  "note": "i = j: swapping equal values"
 },
 {
  "file": "FormatModel",
  "def": "cvt_p",
  "equivalent": true,
  "note": "fuel of a loop that needs at most 16 rounds"
 },
 {
  "file": "EzModel",
  "def": "init",
  "equivalent": true,
  "note": "both fields are 0 here"
 },
 {
  "file": "CstrModel",
  "def": "zt_cstr_sub",
  "equivalent": true,
  "note": "one spare byte in the allocation"
 },
 {
  "file": "CstrModel",
  "def": "zt_cstr_reverse",
  "equivalent": true,
  "note": "the bound of the copy is not reached before the final NUL"
 },
 {
  "file": "DaemonModel",
  "def": "open_null",
  "equivalent": true,
  "note": "no descriptor is negative: dup of it fails either way"
 },
 {
  "file": "DaemonModel",
  "def": "dup",
  "equivalent": true,
  "note": "the result of dup is not used"
 },
 {
  "file": "AssertModel",
  "def": "fmt_nofunc",
  "tightened": [
   "C50_assertion"
  ],
  "note": "the printf model took any letter as a conversion: it now knows c d f g i p s u x"
 },
 {
  "file": "ThreadsModel",
  "def": "iput_loop",
  "tightened": [
   "C52_pool_start"
  ],
  "note": "new theorem"
 },
 {
  "file": "ThreadsModel",
  "def": "oput_loop",
  "tightened": [
   "C52_pool_start"
  ],
  "note": "new theorem"
 },
 {
  "file": "BaseModel",
  "def": "zt_base_decode",
  "tightened": [
   "C02_bad_base"
  ],
  "note": "new theorem"
 },
 {
  "file": "BaseModel",
  "def": "zt_base_encode",
  "tightened": [
   "C02_bad_definition",
   "C02_bad_base"
  ],
  "note": "new theorems"
 },
 {
  "file": "BaseModel",
  "def": "valid_dictionary",
  "tightened": [
   "C02_bad_definition",
   "C02_bad_base"
  ],
  "note": "new theorems"
 },
 {
  "file": "BaseModel",
  "def": "cond_in",
  "equivalent": true,
  "note": "only bits 4 to 7 of the missing byte are used, 0 in both"
 },
 {
  "file": "BaseModel",
  "def": "enc64_loop",
  "equivalent": true,
  "note": "default of nth, never used"
 },
 {
  "file": "BaseModel",
  "def": "bget",
  "equivalent": true,
  "note": "default of nth, never used"
 },
 {
  "file": "BaseModel",
  "def": "u32",
  "equivalent": true,
  "note": "the values are below 2^13, and only the low 8 bits are kept"
 },
 {
  "file": "BaseModel",
  "def": "alpha",
  "equivalent": true,
  "note": "the NUL behind the alphabet is not reached by an index below the base"
 },
 {
  "file": "ReplaceModel",
  "def": "fresh",
  "equivalent": true,
  "note": "the contents are arbitrary"
 },
 {
  "file": "HelpModel",
  "def": "line",
  "equivalent": true,
  "note": "quotient times step plus remainder is the difference for any step"
 },
 {
  "file": "HelpModel",
  "def": "verror_default",
  "tightened": [
   "C58_default"
  ],
  "note": "an error code without message"
 },
 {
  "file": "RegModel",
  "def": "strncmp_eq",
  "equivalent": true,
  "note": "the branch needs strings of different length or shorter than n; get_loop compares lengths first"
 },
 {
  "file": "TmemModel",
  "def": "room",
  "equivalent": true,
  "note": "alloc_in before it has already ended in UB when the pool is not there"
 },
 {
  "file": "SptrModel",
  "def": "w_init",
  "equivalent": true,
  "note": "129 leads to the same number of buckets as 128; the other edit appends the same one-element list"
 },
 {
  "file": "SptrModel",
  "def": "walk_chain",
  "equivalent": true,
  "note": "the callbacks of zt_set.c return 0 or 1 only"
 },
 {
  "file": "AmemModel",
  "def": "m_set_ref",
  "tightened": [
   "C64_no_data"
  ],
  "note": "no data and a negative count"
 },
 {
  "file": "ImemModel",
  "def": "idestroy",
  "equivalent": true,
  "note": "the code returned by the pool group is dropped"
 },
 {
  "file": "GcModel",
  "def": "gc_for_each",
  "tightened": [
   "C41_black"
  ],
  "note": "new: black objects are those scanned, and the first grey object is reported black when a collection stops half-way"
 },
 {
  "file": "HelpModel",
  "def": "pad",
  "match": "+ length s",
  "equivalent": true,
  "note": "a negative width occurs only with the empty string"
 },
 {
  "file": "CfgModel",
  "def": "ends_newline",
  "equivalent": true,
  "note": "the default of last is used only for the empty text, and neither 0 nor 1 is a newline"
 },
 {
  "file": "CstrModel",
  "def": "zt_cstr_rfind",
  "match": "rfind_loop 0 str s",
  "equivalent": true,
  "note": "the loop ends at once there (offt < i), whatever its strings"
 },
 {
  "file": "TimeModel",
  "def": "usleep_sum",
  "match": "(Z.quot (a + b) 1000000)",
  "equivalent": true,
  "note": "the edit repairs the macro; C69_usleep_sum_refuted fails, as it should, and no claim is broken"
 },
 {
  "file": "BmemModel",
  "def": "m_free",
  "match": "o <=? 0",
  "equivalent": true,
  "note": "offsets are never negative: same function on every reachable state"
 },
 {
  "file": "BmemModel",
  "def": "minus",
  "match": "Nat.eqb e d",
  "equivalent": true,
  "note": "symmetric test"
 },
 {
  "file": "BmemModel",
  "def": "minus",
  "match": "None, None => Ok 1",
  "equivalent": true,
  "note": "a buffer with bytes in it has a block: the case is never reached"
 },
 {
  "file": "BmemModel",
  "def": "apart",
  "match": "o - n <=? u",
  "equivalent": true,
  "note": "source and destination never overlap in the programs of C68: the test is never decisive"
 },
 {
  "file": "BmemModel",
  "def": "m_get",
  "match": "n <=? 0",
  "equivalent": true,
  "note": "lengths are never negative"
 },
 {
  "file": "HexModel",
  "def": "default_printer",
  "match": "firstn 100 s",
  "equivalent": true,
  "note": "the text is always shorter than 99 bytes"
 },
 {
  "file": "HexModel",
  "def": "hexdump_loop",
  "match": "else Ok (1, t)",
  "equivalent": true,
  "note": "the result is only compared to -1"
 },
 {
  "file": "HexModel",
  "def": "zt_hexdump",
  "match": "else Ok (1, t)",
  "equivalent": true,
  "note": "the result is only compared to -1"
 },
 {
  "file": "HexModel",
  "def": "read_str",
  "match": "| x => (1, x)",
  "equivalent": true,
  "note": "after undefined behaviour the character does not matter"
 },
 {
  "file": "CmemModel",
  "def": "m_ini",
  "match": "-2",
  "equivalent": true,
  "note": "the callers only tell success from failure"
 },
 {
  "file": "DaemonModel",
  "def": "close_loop",
  "match": "3 ^ 64",
  "equivalent": true,
  "note": "the counter never reaches 2^64"
 },
 {
  "file": "UnitModel",
  "def": "run_test",
  "match": "rev [",
  "equivalent": true,
  "note": "the reverse of a one element list"
 },
 {
  "file": "UnitModel",
  "def": "run_suites",
  "match": "rev [",
  "equivalent": true,
  "note": "the reverse of a one element list"
 },
 {
  "file": "UnitModel",
  "def": "run_tests",
  "match": "rev [",
  "equivalent": true,
  "note": "the reverse of a one element list"
 },
 {
  "file": "CstrModel",
  "def": "zt_cstr_catv",
  "match": "len + ",
  "equivalent": true,
  "note": "the size of the block: what is copied always fits"
 },
 {
  "file": "CstrModel",
  "def": "zt_cstr_map",
  "match": "n + 2",
  "equivalent": true,
  "note": "the size of the block: what is copied always fits"
 },
 {
  "file": "EzModel",
  "def": "add_buffer",
  "match": "Ok (h,",
  "tightened": [
   "C28_add_result"
  ],
  "note": "the specification ignored the result of zt_ez_mempool_add_buffer"
 },
 {
  "file": "FormatModel",
  "def": "read_value",
  "match": "<=?",
  "tightened": [
   "C34_argument_kinds"
  ],
  "note": "no theorem spoke of converters registered with a letter that takes no argument"
 },
 {
  "file": "BaseModel",
  "def": "enc32_loop",
  "match": "nth 4 g 1",
  "equivalent": true,
  "note": "g has five elements"
 },
 {
  "file": "LogModel",
  "def": "conversion",
  "match": "[99; 100; 101",
  "equivalent": true,
  "note": "selects which conversions of printf the model covers"
 },
 {
  "file": "UuidModel",
  "def": "tostr",
  "match": "repeat 1",
  "equivalent": true,
  "note": "every byte of the block is written before it is returned"
 },
 {
  "file": "GcModel",
  "def": "gc_init",
  "match": "mkgc 0 1",
  "tightened": [
   "C41_first_registrations"
  ],
  "note": "no theorem spoke of the count of a new collector"
 },
 {
  "file": "ThreadsModel",
  "def": "pool_init",
  "match": "true), [])",
  "tightened": [
   "C53_init"
  ],
  "note": "now says that a new pool is not marked as stopped"
 },
 {
  "file": "UuidModel",
  "def": "fillstr_",
  "match": "Ok (-0",
  "equivalent": true,
  "note": "encoding a UUID in base 62 never fails"
 },
 {
  "file": "UuidModel",
  "def": "fillstr_",
  "match": "zlen text <=?",
  "equivalent": true,
  "note": "the text always has exactly that length"
 },
 {
  "file": "CstrModel",
  "def": "zt_cstr_find",
  "match": "find_loop 1 s str (j + 1) j",
  "equivalent": true,
  "note": "the loop condition is false at j + 1 for a pattern of one character: the fuel is not used"
 },
 {
  "file": "LogModel",
  "def": "conversion",
  "match": "113",
  "tightened": [
   "C39_message"
  ],
  "note": "the theorems take what the format prints as given; C39_message says what that is"
 },
 {
  "file": "ThreadsModel",
  "def": "put",
  "match": "Ok (-2, p)",
  "tightened": [
   "C53_write_fails"
  ],
  "note": "the answer of an insertion whose write fails was stated only by a refutation"
 },
 {
  "file": "UraceModel",
  "def": "exit_thread",
  "match": "| _ => slots w end",
  "equivalent": true,
  "note": "the edited program never frees the block of a thread that ends: it repairs the use after free, only C73_exit_refuted fails"
 },
 {
  "file": "ThreadsModel",
  "def": "pool_kill",
  "match": "then -0 else 0",
  "tightened": [
   "C53_kill_answer"
  ],
  "note": "no theorem spoke about a failing write in zt_threadpool_kill"
 },
 {
  "file": "LraceModel",
  "def": "context",
  "match": "mkdbg None 1 None",
  "equivalent": true,
  "note": "the line is printed only with a file and a function"
 },
 {
  "file": "UrepModel",
  "def": "quoted",
  "match": "rev [39]",
  "equivalent": true,
  "note": "rev of one element"
 },
 {
  "file": "AraceModel",
  "def": "tstep",
  "match": "mklink 0 1",
  "equivalent": true,
  "note": "the links of a new callback are written before they are read"
 },
 {
  "file": "AraceModel",
  "def": "tstep",
  "match": "rev [Reg fn data]",
  "equivalent": true,
  "note": "rev of one element"
 },
 {
  "file": "ThreadsModel",
  "def": "join_all",
  "match": "| _ => true end",
  "equivalent": true,
  "note": "the edited program repairs the join of threads that never started; only the refutation fails"
 },
 {
  "file": "ThreadsModel",
  "def": "pool_init",
  "match": "[0; 1]",
  "equivalent": true,
  "note": "the claim is false of the code there and stays false; the refutation, which names the descriptors closed, fails"
 },
 {
  "file": "OomModel",
  "def": "expand_o",
  "match": "None 1)",
  "equivalent": true,
  "note": "without a block the offset is not used: the next growth sets it to 0 and any write before is at NULL"
 },
 {
  "file": "OomModel",
  "def": "expand_o",
  "match": "realloc b 1 ",
  "equivalent": true,
  "note": "only whether the call is defined matters, the size is not looked at"
 },
 {
  "file": "OomModel",
  "def": "add",
  "match": "rev [p]",
  "equivalent": true,
  "note": "same list"
 },
 {
  "file": "TailqModel",
  "def": "pool_start",
  "match": "(mkhp [] 1)",
  "equivalent": true,
  "note": "number of earlier allocations, any allocator"
 },
 {
  "file": "OomModel",
  "def": "expand_o",
  "tightened": [
   "C77_buf_room"
  ],
  "note": "new theorem: the exact room the buffer claims after a refused growth"
 },
 {
  "file": "DaemonModel",
  "def": "close_loop",
  "match": "2 ^ 63",
  "equivalent": true,
  "note": "i is at most INT_MAX, i + 1 does not reach 2^63"
 },
 {
  "file": "OptsModel",
  "def": "same_long",
  "match": "text_eqb y x",
  "equivalent": true,
  "note": "comparing two texts for equality is symmetric: the same test with the arguments exchanged"
 },
 {
  "file": "RegModel",
  "def": "group_loop",
  "match": "None => true end",
  "tightened": [],
  "note": "the universally quantified theorems C60_group_back_out_refuted and C60_group_first_refuted no longer prove (the tool leaves theorems about deviations out of its count); no other theorem was needed"
 }
]
