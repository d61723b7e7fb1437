{
 "claims": [
  {
   "property": "C01",
   "status": "proved",
   "theorems": [
    "C01_header_fields",
    "C01_header_short",
    "C01_header_encode",
    "C01_header_injective"
   ],
   "note": ""
  },
  {
   "property": "C02",
   "status": "proved",
   "theorems": [
    "C02_packet_decode",
    "C02_packet_decode_extend"
   ],
   "note": ""
  },
  {
   "property": "C03",
   "status": "proved",
   "theorems": [
    "C03_packets_at",
    "C03_decode_stream"
   ],
   "note": ""
  },
  {
   "property": "C04",
   "status": "proved",
   "theorems": [
    "C04_chunking",
    "C04_chunks_transcript"
   ],
   "note": ""
  },
  {
   "property": "C05",
   "status": "proved",
   "theorems": [
    "C05_panic_exact",
    "C05_max_length_refuted"
   ],
   "note": "C05_panic_exact is the exact condition; C05_max_length_refuted refutes the expectation that every legal packet can be read."
  },
  {
   "property": "C06",
   "status": "proved",
   "theorems": [
    "C06_error_forwarded",
    "C06_nothing_swallowed_or_invented"
   ],
   "note": ""
  },
  {
   "property": "C07",
   "status": "proved",
   "theorems": [
    "C07_filtered_packets",
    "C07_filtered_blocks",
    "C07_filter_ok_hangs_refuted",
    "C07_terminates_on_finite_readers"
   ],
   "note": "Termination on finite readers proved; the unrestricted expectation is refuted by C07_filter_ok_hangs_refuted."
  },
  {
   "property": "C08",
   "status": "proved",
   "theorems": [
    "C08_missing_packets",
    "C08_zero_iff_successor"
   ],
   "note": ""
  },
  {
   "property": "C09",
   "status": "proved",
   "theorems": [
    "C09_groups_partition"
   ],
   "note": ""
  },
  {
   "property": "C10",
   "status": "proved",
   "theorems": [
    "C10_groups_exact",
    "C10_back_to_back_groups_refuted"
   ],
   "note": "Exact rule proved; the expectation that LAST ends a group is refuted."
  },
  {
   "property": "C11",
   "status": "proved",
   "theorems": [
    "C11_have_missing",
    "C11_have_missing_empty",
    "C11_complete"
   ],
   "note": ""
  },
  {
   "property": "C12",
   "status": "proved",
   "theorems": [
    "C12_summary_totals"
   ],
   "note": ""
  },
  {
   "property": "C13",
   "status": "proved",
   "theorems": [
    "C13_cds_value",
    "C13_cds_trailing_ignored",
    "C13_cds_short",
    "C13_cds_bad_submillis"
   ],
   "note": "hifitime Duration::compose is external and taken to be exact (see DESIGN.md)."
  },
  {
   "property": "C14",
   "status": "proved",
   "theorems": [
    "C14_submillis4_exact",
    "C14_picoseconds_refuted"
   ],
   "note": "Exact behaviour proved; picosecond documentation refuted."
  },
  {
   "property": "C15",
   "status": "proved",
   "theorems": [
    "C15_cuc_value",
    "C15_cuc_default_mult",
    "C15_cuc_other_mult",
    "C15_cuc_errors"
   ],
   "note": "f32/f64 arithmetic is Coq.Floats.SpecFloat; hifitime Duration::compose external and taken to be exact."
  },
  {
   "property": "C16",
   "status": "proved",
   "theorems": [
    "C16_cds_panic_exact",
    "C16_cuc_never_panics"
   ],
   "note": ""
  },
  {
   "property": "C17",
   "status": "proved",
   "theorems": [
    "C17_registered_format",
    "C17_default_format"
   ],
   "note": ""
  },
  {
   "property": "C18",
   "status": "proved",
   "theorems": [
    "C18_merge_selection",
    "C18_unreadable"
   ],
   "note": "Hash orders are arbitrary permutations (hash_ok)."
  },
  {
   "property": "C19",
   "status": "proved",
   "theorems": [
    "C19_merge_sorted",
    "C19_without_order"
   ],
   "note": ""
  },
  {
   "property": "C20",
   "status": "proved",
   "theorems": [
    "C20_exact_order",
    "C20_listed_order_reversed_refuted"
   ],
   "note": "Exact order proved; documented order refuted."
  },
  {
   "property": "C21",
   "status": "proved",
   "theorems": [
    "C21_incomplete_group_merged_refuted"
   ],
   "note": "Refutation for every file that consists of a lone FIRST packet; what is merged instead is exactly C18."
  },
  {
   "property": "C22",
   "status": "proved",
   "theorems": [
    "C22_deterministic_without_ties",
    "C22_nondeterministic_refuted"
   ],
   "note": "Determinism without ties proved, unrestricted determinism refuted."
  },
  {
   "property": "C23",
   "status": "proved",
   "theorems": [
    "C23_sync_exact",
    "C23_sync_defined"
   ],
   "note": ""
  },
  {
   "property": "C24",
   "status": "proved",
   "theorems": [
    "C24_block_data"
   ],
   "note": ""
  },
  {
   "property": "C25",
   "status": "proved",
   "theorems": [
    "C25_cadu_round_trip",
    "C25_standard_marker_round_trip"
   ],
   "note": ""
  },
  {
   "property": "C26",
   "status": "proved",
   "theorems": [
    "C26_locations",
    "C26_first_data_bit"
   ],
   "note": ""
  },
  {
   "property": "C27",
   "status": "proved",
   "theorems": [
    "C27_truncated_aligned_refuted",
    "C27_truncated_shifted_refuted",
    "C27_nothing_after"
   ],
   "note": "Exact behaviour on truncation; the expectation that the iterator just ends is refuted."
  },
  {
   "property": "C28",
   "status": "proved",
   "theorems": [
    "C28_never_panics",
    "C28_terminates",
    "C28_block_lengths"
   ],
   "note": ""
  },
  {
   "property": "C29",
   "status": "proved",
   "theorems": [
    "C29_chunking",
    "C29_interrupted_refuted"
   ],
   "note": "Chunking independence proved; retry of Interrupted refuted."
  },
  {
   "property": "C30",
   "status": "proved",
   "theorems": [
    "C30_derandomize_bits",
    "C30_derandomize_length_bytes",
    "C30_derandomize_involution",
    "C30_derandomize_bytewise",
    "C30_table_generated"
   ],
   "note": ""
  },
  {
   "property": "C31",
   "status": "proved",
   "theorems": [
    "C31_vcdu_header",
    "C31_vcdu_none_iff"
   ],
   "note": ""
  },
  {
   "property": "C32",
   "status": "proved",
   "theorems": [
    "C32_missing_frames",
    "C32_no_wrap_exact",
    "C32_wrap_undercounts_refuted",
    "C32_rollover_refuted"
   ],
   "note": "Exact value for all 24-bit pairs."
  },
  {
   "property": "C33",
   "status": "proved",
   "theorems": [
    "C33_frames",
    "C33_total"
   ],
   "note": ""
  },
  {
   "property": "C34",
   "status": "proved",
   "theorems": [
    "C34_stops_at_undecodable_refuted",
    "C34_stops_exactly_there"
   ],
   "note": "Exact behaviour; the expectation that later CADUs are unaffected is refuted."
  },
  {
   "property": "C35",
   "status": "proved",
   "theorems": [
    "C35_mpdu",
    "C35_mpdu_panics_iff"
   ],
   "note": ""
  },
  {
   "property": "C36",
   "status": "proved",
   "theorems": [
    "C36_reassembly",
    "C36_round_trip"
   ],
   "note": ""
  },
  {
   "property": "C37",
   "status": "proved",
   "theorems": [
    "C37_contribution_function",
    "C37_channels_independent"
   ],
   "note": ""
  },
  {
   "property": "C38",
   "status": "proved",
   "theorems": [
    "C38_packet_origin"
   ],
   "note": ""
  },
  {
   "property": "C39",
   "status": "proved",
   "theorems": [
    "C39_restart_after_gap",
    "C39_restart_after_errored_frame"
   ],
   "note": ""
  },
  {
   "property": "C40",
   "status": "proved",
   "theorems": [
    "C40_no_panic",
    "C40_panic_at_short_frame",
    "C40_panics_iff"
   ],
   "note": ""
  },
  {
   "property": "C41",
   "status": "proved",
   "theorems": [
    "C41_codewords",
    "C41_codec_sees_codewords",
    "C41_interleave_inverse",
    "C41_transparent"
   ],
   "note": "The codec (rs2 crate) is a universally quantified parameter."
  },
  {
   "property": "C42",
   "status": "proved",
   "theorems": [
    "C42_error_iff",
    "C42_error_kind",
    "C42_uncorrectable_iff",
    "C42_corrected_data",
    "C42_not_corrected_iff",
    "C42_correction_off_clean",
    "C42_panic_exact"
   ],
   "note": "codec_ok is the only assumption on the rs2 codec: codewords not reported uncorrectable come back with 223..255 bytes."
  },
  {
   "property": "C43",
   "status": "proved",
   "theorems": [
    "C43_detection_ignored",
    "C43_detection_off_refuted"
   ],
   "note": "Exact behaviour; documented effect refuted."
  },
  {
   "property": "C44",
   "status": "proved",
   "theorems": [
    "C44_returned_data",
    "C44_check_symbols_refuted",
    "C44_stage_keeps_data"
   ],
   "note": "Exact data; documented data refuted."
  },
  {
   "property": "C45",
   "status": "proved",
   "theorems": [
    "C45_in_order",
    "C45_processed_once",
    "C45_frames",
    "C45_nothing_after_failure"
   ],
   "note": "All interleavings of a labelled transition system of submit thread, pool, dispatch thread, consumer and bounded channels."
  },
  {
   "property": "C46",
   "status": "proved",
   "theorems": [
    "C46_terminates",
    "C46_no_deadlock",
    "C46_all_delivered",
    "C46_can_finish"
   ],
   "note": "rayon and crossbeam semantics are the transition rules, see DESIGN.md; fairness is not needed since every execution is finite."
  },
  {
   "property": "C47",
   "status": "proved",
   "theorems": [
    "C47_stale_header_refuted",
    "C47_header_agrees_if_unchanged"
   ],
   "note": "Agreement for unchanged frames proved; refuted for corrected ones."
  },
  {
   "property": "C48",
   "status": "proved",
   "theorems": [
    "C48_end_to_end"
   ],
   "note": "The stages exchange finite lists of items; the Reed-Solomon stage is any complete execution."
  },
  {
   "property": "C49",
   "status": "proved",
   "theorems": [
    "C49_packet_time",
    "C49_filter_apids",
    "C49_filter_times",
    "C49_no_filters",
    "C49_after_drops_2100_refuted"
   ],
   "note": ""
  },
  {
   "property": "C50",
   "status": "proved",
   "theorems": [
    "C50_parse_one",
    "C50_parse_number_ranges",
    "C50_range_members"
   ],
   "note": ""
  },
  {
   "property": "C51",
   "status": "proved",
   "theorems": [
    "C51_exact_count",
    "C51_equal_files",
    "C51_extra_packet_missed_refuted",
    "C51_detects"
   ],
   "note": "CRC-32 is a universally quantified function."
  },
  {
   "property": "C52",
   "status": "proved",
   "theorems": [
    "C52_info",
    "C52_min_max"
   ],
   "note": ""
  },
  {
   "property": "C53",
   "status": "proved",
   "theorems": [
    "C53_report",
    "C53_totals",
    "C53_panics_iff",
    "C53_pipeline"
   ],
   "note": ""
  },
  {
   "property": "C54",
   "status": "proved",
   "theorems": [
    "C54_eos_helper_refuted",
    "C54_jpss_helper"
   ],
   "note": "The EOS helper is refuted for every buffer."
  },
  {
   "property": "C55",
   "status": "proved",
   "theorems": [
    "C55_failing_reader_hangs_refuted",
    "C55_returns_on_finite_readers"
   ],
   "note": "Exact dichotomy on the reader."
  },
  {
   "property": "C56",
   "status": "proved",
   "theorems": [
    "C56_filter_command_apids",
    "C56_filter_command_times",
    "C56_big_include_selects_all_refuted"
   ],
   "note": ""
  },
  {
   "property": "C57",
   "status": "proved",
   "theorems": [
    "C57_no_clobber",
    "C57_only_the_output",
    "C57_merge_command",
    "C57_merge_failure_loses_output_refuted",
    "C57_filter_failure_loses_output_refuted",
    "C57_filter_onto_itself_refuted",
    "C57_merge_onto_input_refuted"
   ],
   "note": ""
  },
  {
   "property": "C58",
   "status": "proved",
   "theorems": [
    "C58_unknown_order_name",
    "C58_jpss_viirs",
    "C58_whole_seconds",
    "C58_fractions_refuted",
    "C58_before_1900"
   ],
   "note": ""
  },
  {
   "property": "C59",
   "status": "proved",
   "theorems": [
    "C59_options",
    "C59_rejected",
    "C59_asm_ignored_refuted",
    "C59_framing_command",
    "C59_interleave_256_refuted"
   ],
   "note": ""
  },
  {
   "property": "C60",
   "status": "proved",
   "theorems": [
    "C60_python_files",
    "C60_python_missing_file"
   ],
   "note": ""
  },
  {
   "property": "C61",
   "status": "proved",
   "theorems": [
    "C61_drop_does_not_stop_refuted",
    "C61_everything_processed"
   ],
   "note": ""
  },
  {
   "property": "C62",
   "status": "proved",
   "theorems": [
    "C62_read_errors"
   ],
   "note": ""
  },
  {
   "property": "C63",
   "status": "proved",
   "theorems": [
    "C63_offsets_after_error_refuted"
   ],
   "note": ""
  },
  {
   "property": "C64",
   "status": "proved",
   "theorems": [
    "C64_read_packet",
    "C64_read_incomplete"
   ],
   "note": ""
  },
  {
   "property": "C65",
   "status": "proved",
   "theorems": [
    "C65_frames_are_blocks",
    "C65_builder_calls",
    "C65_with_rs"
   ],
   "note": ""
  },
  {
   "property": "C66",
   "status": "proved",
   "theorems": [
    "C66_packets_from_bytes",
    "C66_blocks_from_bytes",
    "C66_frames_from_cadus",
    "C66_packets_from_frames",
    "C66_groups_from_packets"
   ],
   "note": ""
  },
  {
   "property": "C67",
   "status": "proved",
   "theorems": [
    "C67_nothing_held_back",
    "C67_back_pressure"
   ],
   "note": ""
  },
  {
   "property": "C68",
   "status": "proved",
   "theorems": [
    "C68_panics_exactly",
    "C68_ends_or_panics",
    "C68_caller_sees_panic",
    "C68_rs_truncates_refuted"
   ],
   "note": ""
  },
  {
   "property": "C69",
   "status": "proved",
   "theorems": [
    "C69_diff_prints",
    "C69_diff_nothing",
    "C69_diff_same_file",
    "C69_info_command",
    "C69_info_missing_file"
   ],
   "note": ""
  },
  {
   "property": "C70",
   "status": "proved",
   "theorems": [
    "C70_one_pass",
    "C70_whole_packets",
    "C70_split_packet_refuted"
   ],
   "note": ""
  },
  {
   "property": "C71",
   "status": "proved",
   "theorems": [
    "C71_any_order_exact",
    "C71_every_call_returns"
   ],
   "note": ""
  },
  {
   "property": "C72",
   "status": "proved",
   "theorems": [
    "C72_hits",
    "C72_overflow_panics_refuted",
    "C72_wraps",
    "C72_iterator",
    "C72_iterator_panics_refuted"
   ],
   "note": "Counts exact below 2^31 per alignment; unrestricted expectation refuted."
  },
  {
   "property": "C73",
   "status": "proved",
   "theorems": [
    "C73_missing_packets_checked",
    "C73_missing_packets_wrapping",
    "C73_missing_frames_checked",
    "C73_missing_frames_wrapping"
   ],
   "note": ""
  },
  {
   "property": "C74",
   "status": "proved",
   "theorems": [
    "C74_packet_kinds",
    "C74_frame_fill",
    "C74_mpdu",
    "C74_integrity_ok"
   ],
   "note": ""
  },
  {
   "property": "C75",
   "status": "proved",
   "theorems": [
    "C75_end_to_end_with_loss"
   ],
   "note": ""
  },
  {
   "property": "C76",
   "status": "proved",
   "theorems": [
    "C76_perform_calls",
    "C76_stage_is_library",
    "C76_same_output",
    "C76_in_flight"
   ],
   "note": ""
  },
  {
   "property": "C77",
   "status": "proved",
   "theorems": [
    "C77_write_all",
    "C77_merge",
    "C77_merge_error",
    "C77_merge_command",
    "C77_filter_command",
    "C77_framing_command",
    "C77_short_writes",
    "C77_device_full",
    "C77_stopped"
   ],
   "note": ""
  },
  {
   "property": "C78",
   "status": "proved",
   "theorems": [
    "C78_every_file",
    "C78_reading",
    "C78_one_reading",
    "C78_filter",
    "C78_info",
    "C78_diff",
    "C78_merge",
    "C78_python"
   ],
   "note": ""
  },
  {
   "property": "C79",
   "status": "proved",
   "theorems": [
    "C79_every_reader",
    "C79_one_way",
    "C79_inputs",
    "C79_closed_groups",
    "C79_iterators",
    "C79_every_group_reader",
    "C79_group_inputs",
    "C79_info",
    "C79_filter_apids",
    "C79_filter_times",
    "C79_crash_points",
    "C79_diff",
    "C79_diff_left_missing",
    "C79_merge",
    "C79_merge_reads",
    "C79_agrees_info",
    "C79_agrees_diff",
    "C79_agrees_merge",
    "C79_agrees_filter",
    "C79_directory_refuted"
   ],
   "note": "The second half of merge (re-reading by offset) is C82; the framing command is C81; fuel counts steps, \"eventually\" is for all larger fuel. C79_directory_refuted: the expectation that the commands always return."
  },
  {
   "property": "C80",
   "status": "proved",
   "theorems": [
    "C80_packet_decoder",
    "C80_packet_decoder_panic",
    "C80_packet_decoder_total",
    "C80_frame_decoder",
    "C80_frame_decoder_panic",
    "C80_derandomize",
    "C80_groups",
    "C80_groups_total",
    "C80_sources",
    "C80_packets_lost_refuted",
    "C80_group_split_refuted"
   ],
   "note": "C80_packets_lost_refuted, C80_group_split_refuted: what a user of collect_groups on a live source would expect."
  },
  {
   "property": "C81",
   "status": "proved",
   "theorems": [
    "C81_every_stream",
    "C81_one_way",
    "C81_failing_device",
    "C81_frames",
    "C81_framing",
    "C81_crash_points",
    "C81_on_files",
    "C81_rs",
    "C81_frames_total",
    "C81_rs_loop",
    "C81_rs_reaches",
    "C81_rs_nothing_held_back",
    "C81_output_over_input_refuted"
   ],
   "note": "C81_output_over_input_refuted is for decoding without Reed-Solomon (with it the thread that reads and the truncation race)."
  },
  {
   "property": "C82",
   "status": "proved",
   "theorems": [
    "C82_merge",
    "C82_copied_unique",
    "C82_every_input",
    "C82_unopened",
    "C82_index_fails",
    "C82_same_files",
    "C82_changed_files",
    "C82_agrees",
    "C82_read_error_refuted",
    "C82_command",
    "C82_command_hangs",
    "C82_command_refuses"
   ],
   "note": "C82_read_error_refuted: the expectation that a merge that reports success has copied packets. all_read covers every reader of bytes (C82_every_input)."
  },
  {
   "property": "C83",
   "status": "proved",
   "theorems": [
    "C83_any_cut",
    "C83_failing_link",
    "C83_failing_link_rs",
    "C83_cut_file",
    "C83_cut_file_returns",
    "C83_cut_file_refuted"
   ],
   "note": "C83_cut_file_refuted: the expectation that only packets that were sent are returned. A file is any reader that delivers its bytes and then ends."
  },
  {
   "property": "C84",
   "status": "proved",
   "theorems": [
    "C84_read_back",
    "C84_framing_summary",
    "C84_info_json"
   ],
   "note": "How times and durations are written (hifitime) is a parameter: the theorem holds for every such function. File names are lists of characters."
  },
  {
   "property": "C85",
   "status": "proved",
   "theorems": [
    "C85_stdout",
    "C85_ends_with_newline",
    "C85_reliable",
    "C85_last_line_lost",
    "C85_info_json_cut_refuted"
   ],
   "note": "C85_info_json_cut_refuted: the expectation that success means that the whole report has arrived. The buffer is the one of Rust's stdout (LineWriter, 1024 bytes)."
  },
  {
   "property": "C86",
   "status": "proved",
   "theorems": [
    "C86_summary_file",
    "C86_outcomes",
    "C86_same_file_refuted"
   ],
   "note": "C86_same_file_refuted: the expectation that the summary file may not be the input or the output."
  },
  {
   "property": "C87",
   "status": "proved",
   "theorems": [
    "C87_framing_text",
    "C87_framing_stdout",
    "C87_framing_report",
    "C87_counts_exact",
    "C87_difference_refuted",
    "C87_diff_text",
    "C87_diff_nothing",
    "C87_unambiguous",
    "C87_diff_panics"
   ],
   "note": "C87_difference_refuted: the expectation that the difference column is right for all counts. info's text template is in C88."
  },
  {
   "property": "C88",
   "status": "proved",
   "theorems": [
    "C88_text",
    "C88_json",
    "C88_name",
    "C88_names_differ",
    "C88_name_refuted",
    "C88_ends"
   ],
   "note": "C88_name_refuted: the expectation that the report shows the name of the file. How times are written is a parameter; C88_text needs these texts and the name to be free of newlines and of what HTML escapes."
  },
  {
   "property": "C89",
   "status": "proved",
   "theorems": [
    "C89_merge",
    "C89_panics",
    "C89_times"
   ],
   "note": "Decoders of CDS formats only: how the merger compares times of different time scales (CUC formats) is not modelled. Times are in nanoseconds."
  },
  {
   "property": "C90",
   "status": "proved",
   "theorems": [
    "C90_config",
    "C90_other_members",
    "C90_framing",
    "C90_options_kept",
    "C90_no_config",
    "C90_documented_refuted",
    "C90_values"
   ],
   "note": "C90_documented_refuted: the expectation that the documented config is accepted. How text is read as a JSON value (serde_json) is a parameter of the theorems."
  },
  {
   "property": "C91",
   "status": "proved",
   "theorems": [
    "C91_reads",
    "C91_reads_rs",
    "C91_any_source",
    "C91_runs",
    "C91_fails",
    "C91_directory_refuted"
   ],
   "note": "C91_directory_refuted: the expectation that a directory is refused as input. C91_any_source, C91_runs and C91_fails are about the command without Reed-Solomon; with it C91_reads_rs."
  },
  {
   "property": "C92",
   "status": "proved",
   "theorems": [
    "C92_reads",
    "C92_round_trip",
    "C92_decoded",
    "C92_summary",
    "C92_reads_summary",
    "C92_unchecked_refuted"
   ],
   "note": "C92_unchecked_refuted: the expectation that only values the library could have made are read. JSON values, not their text; the serde of other types (timecode::Format, RsOpts and the like) is not modelled."
  },
  {
   "property": "C93",
   "status": "proved",
   "theorems": [
    "C93_blocks_end",
    "C93_ends",
    "C93_same_frames",
    "C93_kept_exactly",
    "C93_undamaged",
    "C93_stitched_refuted"
   ],
   "note": "C93_stitched_refuted: the expectation that the output of the documented chain can be given to packet_decoder. C93_ex shows it end to end on a byte stream."
  },
  {
   "property": "C94",
   "status": "proved",
   "theorems": [
    "C94_apid_filters",
    "C94_time_then_apid",
    "C94_one_command",
    "C94_apid_then_time_refuted",
    "C94_filter_twice",
    "C94_merge_again",
    "C94_merge_in_steps",
    "C94_merge_in_steps_refuted"
   ],
   "note": "C94_apid_then_time_refuted: the expectation that apid and time filters commute. C94_merge_in_steps_refuted: the expectation that merging in steps is merging at once, for segmented packets."
  },
  {
   "property": "C95",
   "status": "proved",
   "theorems": [
    "C95_panics",
    "C95_merge",
    "C95_deterministic",
    "C95_one_scale"
   ],
   "note": "How hifitime orders epochs of different scales is the parameter `instant` of the theorems, with only 0 <= instant of the lower limit assumed."
  },
  {
   "property": "C96",
   "status": "proved",
   "theorems": [
    "C96_from_frames",
    "C96_from_stream",
    "C96_read_back",
    "C96_cut",
    "C96_long_packet_refuted",
    "C96_groups",
    "C96_filter",
    "C96_merge",
    "C96_long_packet_in_frames"
   ],
   "note": "C96_long_packet_refuted, C96_long_packet_in_frames: the expectation that whatever the library decodes can be written and read again fails for packets of more than 65536 bytes."
  },
  {
   "property": "C97",
   "status": "proved",
   "theorems": [
    "C97_unix_seconds",
    "C97_near",
    "C97_exact",
    "C97_jpss",
    "C97_jpss_order",
    "C97_cds",
    "C97_cuc",
    "C97_dropped_refuted",
    "C97_dropped",
    "C97_late_refuted"
   ],
   "note": "Uses the standard library axioms of Reals (listed in DESIGN.md). C97_dropped_refuted, C97_late_refuted: the documentation and an expectation refuted."
  },
  {
   "property": "C98",
   "status": "proved",
   "theorems": [
    "C98_header_str",
    "C98_packet_str",
    "C98_group_str",
    "C98_str_tells",
    "C98_packet",
    "C98_wire",
    "C98_again",
    "C98_from_file",
    "C98_group",
    "C98_stub_refuted",
    "C98_iso_refuted",
    "C98_timecode_cds",
    "C98_timecode_cuc"
   ],
   "note": "C98_stub_refuted, C98_iso_refuted: the type stub and a comment refuted."
  },
  {
   "property": "C99",
   "status": "proved",
   "theorems": [
    "C99_zeroed",
    "C99_in_order",
    "C99_one_pushed_back",
    "C99_pushed_back_fill",
    "C99_pushed_back_next",
    "C99_order_refuted",
    "C99_fill_at_end",
    "C99_fill_loses",
    "C99_offset",
    "C99_no_panic"
   ],
   "note": "C99_order_refuted: the documentation refuted."
  },
  {
   "property": "C100",
   "status": "proved",
   "theorems": [
    "C100_in_order",
    "C100_end",
    "C100_first_sitting",
    "C100_panic_hidden",
    "C100_no_deadlock",
    "C100_keeps_coming",
    "C100_nothing_held_back",
    "C100_pipeline",
    "C100_finishes",
    "C100_drop_never_stops_refuted"
   ],
   "note": "C100_first_sitting: what comes after a pause is lost; C100_panic_hidden: a panic of the source looks like its end."
  },
  {
   "property": "C101",
   "status": "proved",
   "theorems": [
    "C101_merge_paths",
    "C101_merge_distribution",
    "C101_merge_distribution_refuted",
    "C101_merge_apids",
    "C101_merge_command",
    "C101_diff_order",
    "C101_diff_swap",
    "C101_filter_numbers",
    "C101_info_order",
    "C101_info_interleaving",
    "C101_info_missing_refuted"
   ],
   "note": "C101_merge_distribution_refuted: with segmented packets the division among files matters; C101_info_missing_refuted: missing packets depend on the order within an apid."
  },
  {
   "property": "C102",
   "status": "proved",
   "theorems": [
    "C102_filter_apids",
    "C102_filter_times",
    "C102_filter_onto_link_refuted",
    "C102_merge",
    "C102_merge_files",
    "C102_merge_onto_link_refuted",
    "C102_diff_same_file",
    "C102_info_same_file",
    "C102_only_the_output",
    "C102_no_clobber",
    "C102_no_file",
    "C102_framing_onto_link_refuted"
   ],
   "note": "C102_no_file (broken links); C102_filter_onto_link_refuted, C102_merge_onto_link_refuted, C102_framing_onto_link_refuted: a file overwritten through a link of its own is lost and the command reports success."
  },
  {
   "property": "C103",
   "status": "proved",
   "theorems": [
    "C103_packet_decoder",
    "C103_packet_decoder_total",
    "C103_one_frame_of_data_refuted",
    "C103_frame_decoder",
    "C103_synchronizer",
    "C103_summary"
   ],
   "note": "C103_one_frame_of_data_refuted: the source comment that about one frame of data is cached is wrong (up to 65541 bytes for each channel). The look-ahead of the Reed-Solomon stage is bounded by C67; collect_groups keeps a whole group by its interface."
  },
  {
   "property": "C104",
   "status": "proved",
   "theorems": [
    "C104_packets",
    "C104_cut_packet_refuted",
    "C104_filter_apids",
    "C104_filter_times",
    "C104_merge",
    "C104_info",
    "C104_blocks",
    "C104_frames",
    "C104_frame_packets",
    "C104_group_across_refuted",
    "C104_packet_across_refuted"
   ],
   "note": "The exceptions are proved as C104_cut_packet_refuted, C104_group_across_refuted and C104_packet_across_refuted. Concrete cases for every theorem are in W_Join."
  },
  {
   "property": "C105",
   "status": "proved",
   "theorems": [
    "C105_cds",
    "C105_leap_second_refuted",
    "C105_cds4_refuted",
    "C105_cds4_milli_refuted",
    "C105_cuc",
    "C105_cuc_default",
    "C105_cuc_wide_refuted",
    "C105_packets"
   ],
   "note": "C105_leap_second_refuted, C105_cuc_wide_refuted, C105_cds4_refuted, C105_cds4_milli_refuted: codes out of range are not refused, and are out of order."
  },
  {
   "property": "C106",
   "status": "proved",
   "theorems": [
    "C106_damage",
    "C106_length",
    "C106_swallowed_refuted",
    "C106_filter",
    "C106_info",
    "C106_diff",
    "C106_diff_blind_refuted"
   ],
   "note": "C106_length says what is read after a damaged length field; C106_swallowed_refuted: the packets it covers are lost; C106_diff_blind_refuted: diff does not see damage to version, type and flags."
  },
  {
   "property": "C107",
   "status": "proved",
   "theorems": [
    "C107_damaged_blocks",
    "C107_false_marker",
    "C107_locked_out_refuted"
   ],
   "note": "C107_locked_out_refuted: synchronization need not be regained."
  },
  {
   "property": "C108",
   "status": "proved",
   "theorems": [
    "C108_lengths_only",
    "C108_swallowed_refuted",
    "C108_damage",
    "C108_after_loss",
    "C108_not_a_packet"
   ],
   "note": "C108_swallowed_refuted: the expectation that the next first header pointer resynchronizes is refuted."
  }
 ]
}