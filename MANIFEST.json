{
 "claims": [
  {
   "property": "C01",
   "status": "proved",
   "theorems": [
    "C01_var_u32_roundtrip",
    "C01_var_u32_length"
   ],
   "note": "All u32, any suffix; LEB128 reader is an independent spec (SFormat.v)."
  },
  {
   "property": "C02",
   "status": "proved",
   "theorems": [
    "C02_var_i32_roundtrip",
    "C02_var_i32_length",
    "C02_write_str_roundtrip"
   ],
   "note": "All i32; strings below 2^31 bytes."
  },
  {
   "property": "C03",
   "status": "proved",
   "theorems": [
    "C03_read_var_u32_iff",
    "C03_read_any",
    "C03_read_value"
   ],
   "note": "Exact characterisation, both profiles; C03_read_any covers every byte sequence, not only what the writer emits."
  },
  {
   "property": "C04",
   "status": "proved",
   "theorems": [
    "C04_ts2_long_lossless",
    "C04_ts2_long_lossless_debug"
   ],
   "note": "Release total and lossless; debug lossless whenever it does not panic."
  },
  {
   "property": "C05",
   "status": "proved",
   "theorems": [
    "C05_ts2_int_lossless",
    "C05_ts2_int_lossless_debug"
   ],
   "note": "As C04 for 32-bit columns."
  },
  {
   "property": "C06",
   "status": "proved",
   "theorems": [
    "C06_bit_packing",
    "C06_bit_packing_full_width"
   ],
   "note": "Both routines, all widths; full-width case also for negative numbers."
  },
  {
   "property": "C07",
   "status": "proved",
   "theorems": [
    "C07_time_column_never_panics",
    "C07_value_column_iff",
    "C07_same_bytes",
    "C07_same_time_bytes"
   ],
   "note": "Exact no-panic condition for value columns, never for accepted time columns, same bytes as release."
  },
  {
   "property": "C08",
   "status": "proved",
   "theorems": [
    "C08_plain_lossless",
    "C08_column_lossless"
   ],
   "note": "PLAIN in both profiles; C08_column_lossless covers every supported (type, encoding)."
  },
  {
   "property": "C09",
   "status": "proved",
   "theorems": [
    "C09_int_stats_exact",
    "C09_first_at_max_refuted"
   ],
   "note": "Any page/merge tree, both profiles; sharp timestamp hypotheses; refutation witness at i64::MAX."
  },
  {
   "property": "C10",
   "status": "proved",
   "theorems": [
    "C10_int32_sum_exact",
    "C10_int32_never_overflows",
    "C10_float_sum_per_page"
   ],
   "note": "INT32 exact and overflow free below 2^32 points; INT64/FLOAT as IEEE sums following the merge tree."
  },
  {
   "property": "C11",
   "status": "proved",
   "theorems": [
    "C11_float_minmax",
    "C11_float_minmax_finite",
    "C11_only_infinity",
    "C11_nan_ignored"
   ],
   "note": "Complete description in IEEE order, finite case, infinity-only case, NaN independence."
  },
  {
   "property": "C12",
   "status": "proved",
   "theorems": [
    "C12_stats_roundtrip",
    "C12_stats_size",
    "C12_reachable_wf"
   ],
   "note": "All well-formed statistics; every reachable statistics value is proved well formed (binary64 canonicity of sums included)."
  },
  {
   "property": "C13",
   "status": "proved",
   "theorems": [
    "C13_chunk_holds_points",
    "C13_release_never_fails"
   ],
   "note": "Both profiles, all types/encodings, any invertible compressor; release totality proved separately."
  },
  {
   "property": "C14",
   "status": "proved",
   "theorems": [
    "C14_pages_bounded"
   ],
   "note": "Holds in every intermediate state, also of the pages a reader sees."
  },
  {
   "property": "C15",
   "status": "proved",
   "theorems": [
    "C15_flush_never_fails",
    "C15_group_sizes"
   ],
   "note": "Per chunk group the returned size equals both the growth of the sink position and of the sink data; hence flush_all never answers an error. For traces (histories of calls from a new writer on a healthy sink) with total points below 2^32."
  },
  {
   "property": "C16",
   "status": "proved",
   "theorems": [
    "C16_closed_file_holds_acknowledged",
    "C16_closed_file_holds_accepted",
    "C16_uncounted_refuted"
   ],
   "note": "close_acked form: series read by the independent sequential reader = acknowledged points; second theorem covers failing batches via the history; refuted companion shows the side condition 'some call succeeded since the last flush' is needed. Snappy is a parameter with a round-trip and size hypothesis."
  },
  {
   "property": "C17",
   "status": "proved",
   "theorems": [
    "C17_index_holds_accepted",
    "C17_index_holds_acknowledged",
    "C17_statistics"
   ],
   "note": "Independent reader from the tail: every series with data exactly once, with its accepted (or acknowledged) points and statistics; also by single-series lookup. Files below 4 GiB, measurement ids without dots, at most 65536 measurements per device; any permutation as hash order."
  },
  {
   "property": "C18",
   "status": "proved",
   "theorems": [
    "C18_framing"
   ],
   "note": "Full layout of the closed file, split into its parts; the sequential scan stops exactly at the separator whose position the footer stores. Paths shorter than 2^31, file below 4 GiB."
  },
  {
   "property": "C19",
   "status": "proved",
   "theorems": [
    "C19_offsets_hit_headers"
   ],
   "note": "Offsets in io_groups are chunk header positions in the emitted bytes; names, types, device of the group and the points are those of the series. Files below 4 GiB."
  },
  {
   "property": "C20",
   "status": "proved",
   "theorems": [
    "C20_unsorted_order",
    "C20_order_keeps_length",
    "C20_measurements_sorted",
    "C20_devices_in_hash_order"
   ],
   "note": "Sortedness within devices, lookup correctness, root entries = hash order of a sorted device map; for every closable history with two devices an order with an unsorted root exists; the order never changes success or file length."
  },
  {
   "property": "C21",
   "status": "proved",
   "theorems": [
    "C21_filter_no_false_negatives",
    "C21_closed_file"
   ],
   "note": "Filter level and for the filter read back from a closed file's footer."
  },
  {
   "property": "C22",
   "status": "proved",
   "theorems": [
    "C22_hash_is_murmur3",
    "C22_any_build",
    "C22_debug_overflow_refuted"
   ],
   "note": "Release build; any build that returns agrees (C22_any_build); debug builds overflow on ordinary paths (C22_debug_overflow_refuted)."
  },
  {
   "property": "C23",
   "status": "proved",
   "theorems": [
    "C23_filter_panics",
    "C23_44_paths",
    "C23_close_panics",
    "C23_44_series"
   ],
   "note": "C23_close_panics is the iff for whole histories (release, names without dots, any number of measurements per device); C23_44_series holds in both profiles. The filter size is the model value bloom_bits (f64 formula of the code)."
  },
  {
   "property": "C24",
   "status": "proved",
   "theorems": [
    "C24_series_apart",
    "C24_dots_merge_refuted",
    "C24_dots_undeclared_refuted"
   ],
   "note": "Each series has exactly one entry under its own key, only declared series are listed; two refuted companions for ids with dots."
  },
  {
   "property": "C25",
   "status": "proved",
   "theorems": [
    "C25_failed_writes_leave_no_trace"
   ],
   "note": "Any sink schedule, both build modes; runs that do not panic."
  },
  {
   "property": "C26",
   "status": "proved",
   "theorems": [
    "C26_answers",
    "C26_increasing"
   ],
   "note": "answers spells out each call's answer from the specification history; step not panicking is a hypothesis here (see the totality property for well-typed writes)."
  },
  {
   "property": "C27",
   "status": "proved",
   "theorems": [
    "C27_flush_forgets",
    "C27_accepted_again",
    "C27_lifetime_order_refuted"
   ],
   "note": "General: after a flush that emitted data the recent part of the history is empty and every non-negative timestamp is accepted; witness for the lifetime order."
  },
  {
   "property": "C28",
   "status": "proved",
   "theorems": [
    "C28_write_many_as_singles",
    "C28_not_atomic_refuted"
   ],
   "note": "Comparison with single writes for runs in which neither side flushed in between; failing batch characterised by the split at the first rejected point; non-atomicity by witness."
  },
  {
   "property": "C29",
   "status": "proved",
   "theorems": [
    "C29_interleaving_irrelevant"
   ],
   "note": "Both files still at 7 bytes (no memory-triggered flush) before close."
  },
  {
   "property": "C30",
   "status": "proved",
   "theorems": [
    "C30_mismatch_panics",
    "C30_mismatch_panics_batch",
    "C30_only_storable_stored"
   ],
   "note": "storable is an independent table of (declared type, encoding, value kind)."
  },
  {
   "property": "C31",
   "status": "proved",
   "theorems": [
    "C31_second_close_appends",
    "C31_lost_after_close_refuted"
   ],
   "note": "General theorem: file after the second close = file after the first ++ 2 :: r; lost points by witness."
  },
  {
   "property": "C32",
   "status": "proved",
   "theorems": [
    "C32_append_only",
    "C32_history_append_only",
    "C32_crash_prefix"
   ],
   "note": "Per call and per history, every fault schedule; crash at any write call leaves a prefix of the uninterrupted run (for runs that do not panic)."
  },
  {
   "property": "C33",
   "status": "proved",
   "theorems": [
    "C33_position"
   ],
   "note": "All histories, schedules, profiles."
  },
  {
   "property": "C34",
   "status": "proved",
   "theorems": [
    "C34_create",
    "C34_never_reported",
    "C34_dead_disk",
    "C34_no_loss_without_error_refuted"
   ],
   "note": "Creation criterion is an iff; no call ever answers an I/O error; silent-loss witness is the _refuted theorem."
  },
  {
   "property": "C35",
   "status": "proved",
   "theorems": [
    "C35_flushed_survive",
    "C35_flushed_survive_cut"
   ],
   "note": "tail is arbitrary; second theorem: cut anywhere at or after the flushed length of any continuation."
  },
  {
   "property": "C36",
   "status": "proved",
   "theorems": [
    "C36_data_types",
    "C36_encodings",
    "C36_compressions",
    "C36_format_codes"
   ],
   "note": "iff for every integer; plus agreement with the format's code table."
  },
  {
   "property": "C37",
   "status": "proved",
   "theorems": [
    "C37_last_definition_wins",
    "C37_empty_device_panics",
    "C37_same_definitions_same_behaviour",
    "C37_build_idempotent"
   ],
   "note": "Hash maps are association lists with distinct keys, the list order being an arbitrary iteration order; behaviour equality covers answers, io state, file bytes and panics, on any sink and profile."
  },
  {
   "property": "C38",
   "status": "proved",
   "theorems": [
    "C38_mlog",
    "C38_crc"
   ],
   "note": "Any schema list order (= hash-map order), any names made of bytes, log below 2^31 bytes; the CRC is proved equal to an LFSR over GF(2)."
  },
  {
   "property": "C39",
   "status": "proved",
   "theorems": [
    "C39_digest_numeral",
    "C39_digest_injective"
   ],
   "note": "For any hash function; SHA-256 itself is not modelled."
  },
  {
   "property": "C40",
   "status": "proved",
   "theorems": [
    "C40_no_division_by_zero_small",
    "C40_estimate_bound",
    "C40_no_division_by_zero",
    "C40_memory_positive"
   ],
   "note": "C40_no_division_by_zero assumes that the 32-bit memory sum does not wrap in release builds; C40_no_division_by_zero_small replaces this by a bound on the number of buffered points and series."
  },
  {
   "property": "C41",
   "status": "proved",
   "theorems": [
    "C41_release_agrees",
    "C41_converse_refuted"
   ],
   "note": "run Debug = Ret implies run Release = the same Ret, for every sink and start state; converse refuted by a witness."
  },
  {
   "property": "C42",
   "status": "proved",
   "theorems": [
    "C42_debug_close_panics"
   ],
   "note": "Histories without earlier close on a healthy sink; pending points must be counted (otherwise close itself does not flush them)."
  },
  {
   "property": "C43",
   "status": "proved",
   "theorems": [
    "C43_write_returns_iff",
    "C43_batch_returns_iff",
    "C43_session_runs"
   ],
   "note": "Empty batches are excluded: their memory check can run with nothing buffered. The bound is derived from the code (C40_estimate_bound), not assumed of the state."
  },
  {
   "property": "C44",
   "status": "proved",
   "theorems": [
    "C44_requests",
    "C44_ok_iff",
    "C44_err_iff",
    "C44_delivered",
    "C44_faithful",
    "C44_damaged_log",
    "C44_ok_means_stored_refuted",
    "C44_new_ok_iff",
    "C44_new_iff",
    "C44_uuid",
    "C44_uuid_stable"
   ],
   "note": "The claim that success implies a stored data file is refuted (C44_ok_means_stored_refuted): sync_sender.rs:168-175 prints a refused data digest and goes on. The Thrift client is an arbitrary function from earlier requests and a request to an answer."
  },
  {
   "property": "C45",
   "status": "proved",
   "theorems": [
    "C45_utf8",
    "C45_schema_iff",
    "C45_write_iff",
    "C45_native",
    "C45_file",
    "C45_crash",
    "C45_polite",
    "C45_temporary_name_refuted"
   ],
   "note": "Memory is modelled as caller buffers and boxes; aliasing is not modelled beyond borrowed names. The claim with short-lived measurement names is refuted (C45_temporary_name_refuted)."
  },
  {
   "property": "C46",
   "status": "proved",
   "theorems": [
    "C46_never_undefined",
    "C46_file",
    "C46_distinct_names_refuted",
    "C46_distinct_names"
   ],
   "note": "cffi's conversion of int to the i64/u8 parameters is assumed to keep the number. A writer object that is never closed leaks its Rust writer (no file is promised)."
  },
  {
   "property": "C47",
   "status": "proved",
   "theorems": [
    "C47_pages_and_rest",
    "C47_never_fails",
    "C47_acknowledged_lost_refuted"
   ],
   "note": "The file-level statement that acknowledged points are always in the closed file is false when compression fails (C47_acknowledged_lost_refuted); the chunk-level behaviour is characterised exactly."
  },
  {
   "property": "C48",
   "status": "proved",
   "theorems": [
    "C48_page_boundaries",
    "C48_chunk_pages",
    "C48_page_sizes",
    "C48_first_page_int64"
   ],
   "note": "Assumes a compressor that succeeds (with failing ones pages stay open, C47)."
  },
  {
   "property": "C49",
   "status": "proved",
   "theorems": [
    "C49_request_bytes",
    "C49_process",
    "C49_process_unknown",
    "C49_reply",
    "C49_exception",
    "C49_mismatch",
    "C49_success_sound",
    "C49_call",
    "C49_calls",
    "C49_number_overflow",
    "C49_arguments_unchanged_refuted",
    "C49_check_skips_refuted"
   ],
   "note": "The thrift crate's binary protocol (external, not in /repo) is modelled after the published format; framed transports hand on bytes unchanged and writing does not fail; error texts made by the crate are not modelled. C49_check_skips_refuted: the pattern neg1 in SyncServiceCheckArgs::read_from_in_protocol is a variable and takes every field. C49_arguments_unchanged_refuted: ConfirmInfo fields that are None arrive as defaults."
  },
  {
   "property": "C50",
   "status": "proved",
   "theorems": [
    "C50_sync_over_wire",
    "C50_delivered"
   ],
   "note": "Composition of C44 with C49; the receiver is the one of SSync.v behind SyncServiceSyncProcessor."
  },
  {
   "property": "C51",
   "status": "proved",
   "theorems": [
    "C51_file_size",
    "C51_filter_size",
    "C51_filter_size_small",
    "C51_session_file",
    "C51_small_session",
    "C51_header_until_close"
   ],
   "note": "session_file is an equivalence: the close succeeds with the stated file exactly if none of the three panics of close applies. The size bound is an upper bound only. Release build."
  },
  {
   "property": "C52",
   "status": "proved",
   "theorems": [
    "C52_benchmark",
    "C52_benchmark_as_shipped",
    "C52_benchmark2",
    "C52_benchmark2_as_shipped",
    "C52_exact_floats",
    "C52_exact_floats_refuted",
    "C52_quickstart_stores_nothing",
    "C52_header_unreadable",
    "C52_quickstart_with_close"
   ],
   "note": "For the numbers in the sources as instances of the unbounded theorems. The claim that the quickstart stores its points is false (C52_quickstart_stores_nothing, C52_header_unreadable); no compressor assumption there."
  },
  {
   "property": "C53",
   "status": "proved",
   "theorems": [
    "C53_large_device",
    "C53_large_session"
   ],
   "note": "The close is known to return exactly under the condition of C23 (for 65537 series: no path hash equal to i32::MIN); not evaluated on a concrete file of 65537 series, but C72_lost_case is a concrete session that loses its index records. Closed files below 4 GiB (C72: any size, any names, any number of closes). lookup (C17) follows leaf nodes only, so its None is a corollary."
  },
  {
   "property": "C54",
   "status": "proved",
   "theorems": [
    "C54_index",
    "C54_lookup",
    "C54_lookup_after_second_close_refuted",
    "C54_scan"
   ],
   "note": "Index reading for up to 65536 entries per device, lookup for up to 256 (beyond that the leaves of one device no longer come in order of their names); scan without bound. C54_lookup_after_second_close_refuted shows that the guarantee of C20 does not survive a second close."
  },
  {
   "property": "C55",
   "status": "proved",
   "theorems": [
    "C55_flush_points",
    "C55_open",
    "C55_closed",
    "C55_one_device"
   ],
   "note": "Exact bytes relative to the compressor (a parameter) and, for FLOAT columns whose sum is NaN, to the model's choice of the NaN pattern. The order of the device nodes is the hash map's; C55_one_device removes it."
  },
  {
   "property": "C56",
   "status": "proved",
   "theorems": [
    "C56_session",
    "C56_closed_session"
   ],
   "note": "Release builds on a healthy sink. The close part assumes measurement names without dots (C24)."
  },
  {
   "property": "C57",
   "status": "proved",
   "theorems": [
    "C57_recorded",
    "C57_index_after_recovery",
    "C57_found_after_recovery",
    "C57_undisturbed",
    "C57_acknowledged_lost_refuted",
    "C57_reused_chunk_refuted",
    "C57_reused_chunk_panic_refuted"
   ],
   "note": "Any fault schedule. Two refuted statements stay in view: acknowledged points can be lost by one refused write, and a chunk writer used on after a failed flush can write an undecodable chunk (hence the limit of 3446 points per series between a disturbed call and the next undisturbed flush, a hypothesis of the session relation)."
  },
  {
   "property": "C58",
   "status": "proved",
   "theorems": [
    "C58_session",
    "C58_closed_session",
    "C58_builds"
   ],
   "note": "Exact decision of every outcome of a debug build, including each overflowing operation of the TS_2DIFF value encoders and of the Murmur hash. Same bounds as C56."
  },
  {
   "property": "C59",
   "status": "proved",
   "theorems": [
    "C59_ample",
    "C59_small",
    "C59_scan",
    "C59_offsets",
    "C59_survive",
    "C59_survive_cut",
    "C59_framing",
    "C59_index_accepted",
    "C59_index_acknowledged",
    "C59_statistics",
    "C59_sorted",
    "C59_devices",
    "C59_filter",
    "C59_apart",
    "C59_flush_points",
    "C59_open",
    "C59_closed",
    "C59_session",
    "C59_closed_session",
    "C59_debug_session",
    "C59_debug_closed_session"
   ],
   "note": "Generalises the single-file theorems; [modest] is about what each call appends, [ample] a sufficient condition on schema and calls."
  },
  {
   "property": "C60",
   "status": "proved",
   "theorems": [
    "C60_buffered",
    "C60_ample",
    "C60_open_least",
    "C60_closed_least",
    "C60_any_length",
    "C60_unbounded_refuted"
   ],
   "note": "Stated for uncompressed series (a compressor may shrink pages arbitrarily). The refuted part shows that rejected batches are buffered without limit."
  },
  {
   "property": "C61",
   "status": "proved",
   "theorems": [
    "C61_bytes",
    "C61_bytes_large",
    "C61_no_close",
    "C61_first_close",
    "C61_outcomes",
    "C61_outcomes_large"
   ],
   "note": "Bytes: below 4 GiB (C61_bytes) or for any size with roomy_after and modest (C61_bytes_large); at most 65536 index entries per device over all closes. Outcomes in both profiles with C61_outcomes. C61_no_close and C61_first_close relate the specification to that of C55."
  },
  {
   "property": "C62",
   "status": "proved",
   "theorems": [
    "C62_bytes",
    "C62_bytes_large",
    "C62_outcomes",
    "C62_outcomes_large",
    "C62_plain_outcomes",
    "C62_types_refuted"
   ],
   "note": "C61 without its condition on dots. Bytes below 4 GiB (C62_bytes) or of any size with roomy_after and modest (C62_bytes_large); at most 65536 index entries per device part over all closes. C62_plain_outcomes: without dots the specification of the answers is that of C61. C62_types_refuted: an acknowledged point no index record leads to."
  },
  {
   "property": "C63",
   "status": "proved",
   "theorems": [
    "C63_index",
    "C63_index_small",
    "C63_series",
    "C63_lookup",
    "C63_chunks",
    "C63_device_refuted",
    "C63_lookup_refuted"
   ],
   "note": "Reader's view of C62; generalises the index theorems of C24 and C54 to dots in names, any number of closes and files of any size (roomy_after and modest; C63_index_small below 4 GiB). At most 65536 index entries per device part over all closes. C63_series needs batches_ok (no batch rejected half way). C63_lookup: the exact result of a search for one name, for any number of entries. C63_device_refuted: entries are not always under the device written to. C63_lookup_refuted: a search may miss a series that has an entry."
  },
  {
   "property": "C64",
   "status": "proved",
   "theorems": [
    "C64_request",
    "C64_bytes",
    "C64_write",
    "C64_write_release",
    "C64_close",
    "C64_python"
   ],
   "note": "For a closed pointer the file is the file C55/C56 describe for one series; in a debug build C64_write refers to the same answers, C64_write_release spells them out for release builds. Files on healthy disks below 4 GB; schedules with faults are covered by C45 only."
  },
  {
   "property": "C65",
   "status": "proved",
   "theorems": [
    "C65_start",
    "C65_sent",
    "C65_ok",
    "C65_error",
    "C65_values",
    "C65_log",
    "C65_receiver",
    "C65_status_refuted"
   ],
   "note": "The Thrift client is a function from requests to answers, as in C44. C65_status_refuted: exit status 0 does not mean that the receiver kept the data file."
  },
  {
   "property": "C66",
   "status": "proved",
   "theorems": [
    "C66_equal",
    "C66_partial_equivalence",
    "C66_outcomes",
    "C66_reflexive_refuted"
   ],
   "note": "The wrapped std::io::Error is not represented: the comparison never looks at it. C66_reflexive_refuted: an I/O error does not equal itself."
  },
  {
   "property": "C67",
   "status": "proved",
   "theorems": [
    "C67_file",
    "C67_as_shipped",
    "C67_any_disk",
    "C67_no_file",
    "C67_success_refuted"
   ],
   "note": "Main program as nested with-statements over the classes of C46. C67_success_refuted: a disk that fails after the header gives a normal exit and an unreadable file."
  },
  {
   "property": "C68",
   "status": "proved",
   "theorems": [
    "C68_satisfiable",
    "C68_session"
   ],
   "note": "Shows that good_snap is not vacuous for the real format. That the crate snap itself meets it stays an assumption; TRead and C68_case decode the Snappy blocks in the byte arrays the repository's tests expect (those tests were not run)."
  },
  {
   "property": "C69",
   "status": "proved",
   "theorems": [
    "C69_builds",
    "C69_builds_large",
    "C69_columns_refuted",
    "C69_names_refuted"
   ],
   "note": "Derived from C41 and C62: for plain columns the specifications of the two profiles coincide. C69_columns_refuted and C69_names_refuted show that both conditions are needed."
  },
  {
   "property": "C70",
   "status": "proved",
   "theorems": [
    "C70_order",
    "C70_alike",
    "C70_same_refuted",
    "C70_disk_refuted"
   ],
   "note": "Lockstep of the two runs; no condition on schema, names, sizes or compressor. The name of a device in the root is left as the bytes found in the file. C70_same_refuted, C70_disk_refuted: counterexamples to stronger claims."
  },
  {
   "property": "C71",
   "status": "proved",
   "theorems": [
    "C71_layout",
    "C71_log",
    "C71_healthy",
    "C71_retry_refuted"
   ],
   "note": "Any fault schedule; a disk that takes few bytes at a time is no error. C71_retry_refuted: a repeated flush after a half-written one makes the log unreadable."
  },
  {
   "property": "C72",
   "status": "proved",
   "theorems": [
    "C72_bytes",
    "C72_bytes_small",
    "C72_few",
    "C72_parts",
    "C72_reachable_refuted"
   ],
   "note": "C62_bytes_large and C63 without few_paths. C72_bytes: the bytes; C72_bytes_small: files below 4 GiB; C72_few: up to 65536 records it is C62; C72_parts: what is found under each device part. C72_lost_case and C72_reachable_refuted: a concrete session (one point, 65537 closes) that meets all conditions, every call succeeds and nothing is found."
  },
  {
   "property": "C73",
   "status": "proved",
   "theorems": [
    "C73_write",
    "C73_close",
    "C73_few_points",
    "C73_few_points_close",
    "C73_small",
    "C73_few_series",
    "C73_safe_session",
    "C73_silent",
    "C73_unnoticed",
    "C73_fault_refuted"
   ],
   "note": "Release builds. Structural invariants only: no assumption on the compressor, the schedule or (except in C73_safe_session) the well-typedness of calls. The division by zero stays a possible cause of an empty batch with nothing buffered (C56). C73_fault_refuted keeps the refuted statement in view."
  }
 ]
}