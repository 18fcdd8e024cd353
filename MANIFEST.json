{
 "claims": [
  {
   "property": "C01",
   "status": "proved",
   "theorems": [
    "C01_http2_integer_roundtrip",
    "C01_http2_14_bits",
    "C01_http2_14_bits_large"
   ],
   "note": "all naturals, all prefix widths up to 8, all flag bytes with clear prefix bits, all suffixes"
  },
  {
   "property": "C02",
   "status": "proved",
   "theorems": [
    "C02_http2_session_roundtrip"
   ],
   "note": "all histories for which the encoder returns"
  },
  {
   "property": "C03",
   "status": "proved",
   "theorems": [
    "C03_http2_tables_agree"
   ],
   "note": "all histories, also with repeated headers"
  },
  {
   "property": "C04",
   "status": "proved",
   "theorems": [
    "C04_http2_encoder_termination_refuted",
    "C04_http2_encoder_terminates"
   ],
   "note": "the unconditional claim is refuted by a two-message session with the default buffer; the conditional version is proved"
  },
  {
   "property": "C05",
   "status": "proved",
   "theorems": [
    "C05_http2_decoder_memory_bound"
   ],
   "note": "all byte inputs, also after exceptions"
  },
  {
   "property": "C06",
   "status": "proved",
   "theorems": [
    "C06_http2_repeated_headers_refuted",
    "C06_http2_header_sets_preserved"
   ],
   "note": "multiplicities are refuted; sets of headers are preserved for every history"
  },
  {
   "property": "C07",
   "status": "proved",
   "theorems": [
    "C07_http2_frame_wellformed",
    "C07_http2_raises_only_when_too_large"
   ],
   "note": ""
  },
  {
   "property": "C08",
   "status": "proved",
   "theorems": [
    "C08_http2_passes_harness_check",
    "C08_http2_harness_check_refuted"
   ],
   "note": "proved with the proviso on white space, refuted without it"
  },
  {
   "property": "C09",
   "status": "proved",
   "theorems": [
    "C09_headerdiff_integers",
    "C09_headerdiff_integers_14_bits",
    "C09_headerdiff_large_14_bits_raise"
   ],
   "note": "Prefix widths 0, 4, 5, 6, 8 for every integer; the 14-bit prefix below 16383, StructError from 16383 on."
  },
  {
   "property": "C10",
   "status": "proved",
   "theorems": [
    "C10_headerdiff_session_round_trip",
    "C10_plain_strings_ok",
    "C10_headerdiff_encodes",
    "C10_negative_buffer_refuted",
    "C10_after_exception_refuted"
   ],
   "note": "For every non-negative buffer size, delta mode and iteration order. Two findings: a negative buffer size makes every frame undecodable, and after an exception for a frame of 65536 octets or more encoder and decoder disagree."
  },
  {
   "property": "C100",
   "status": "proved",
   "theorems": [
    "C100_no_differences",
    "C100_any_file_refuted"
   ],
   "note": "Composition of the session theorems C31, C09, C47, C21-C23, C52, C30 with the model of the run. headerdiff with deflate and simple with zlib are outside the suiting options."
  },
  {
   "property": "C101",
   "status": "proved",
   "theorems": [
    "C101_three_forms",
    "C101_shows",
    "C101_any_year",
    "C101_every_second",
    "C101_number",
    "C101_unchanged",
    "C101_other_texts",
    "C101_session",
    "C101_any_value_refuted"
   ],
   "note": "The parts of the Python 2.7 library used (email.utils.parsedate and formatdate, calendar.timegm, time.gmtime, int(text, 16)) are modelled from their documented source. gmtime is exact here for every number; the real one goes through a double."
  },
  {
   "property": "C102",
   "status": "proved",
   "theorems": [
    "C102_sizes",
    "C102_every_size",
    "C102_columns",
    "C102_width",
    "C102_columns_refuted",
    "C102_tsv",
    "C102_tsv_injective",
    "C102_tsv_refuted"
   ],
   "note": "locale.format is modelled from the documented source of Python 2.7 with en_US grouping (threes, comma). The texts of times and ratios are given."
  },
  {
   "property": "C103",
   "status": "proved",
   "theorems": [
    "C103_frame_size",
    "C103_sent_again_once"
   ],
   "note": "Follows from the description of the encoder in C96."
  },
  {
   "property": "C104",
   "status": "proved",
   "theorems": [
    "C104_http1_outcomes",
    "C104_http1_size",
    "C104_simple_outcomes",
    "C104_simple_memory",
    "C104_cut_refuted"
   ],
   "note": "The memory bound is for simple without the seven, huffman and date parameters."
  },
  {
   "property": "C105",
   "status": "proved",
   "theorems": [
    "C105_index_bits",
    "C105_readme",
    "C105_readme_refuted",
    "C105_index_width",
    "C105_other_names",
    "C105_implict_hg_add_refuted"
   ],
   "note": "The README is refuted; what holds instead is characterised."
  },
  {
   "property": "C106",
   "status": "proved",
   "theorems": [
    "C106_same_results",
    "C106_told",
    "C106_quiet",
    "C106_debug",
    "C106_warnings",
    "C106_report_injective",
    "C106_report_refuted"
   ],
   "note": "Session headers and summaries are C102."
  },
  {
   "property": "C107",
   "status": "proved",
   "theorems": [
    "C107_command_line",
    "C107_everything_can_be_said",
    "C107_ends",
    "C107_values_are_not_options_refuted"
   ],
   "note": "optparse itself is modelled from its documented behaviour; the reading of an integer is a parameter."
  },
  {
   "property": "C108",
   "status": "proved",
   "theorems": [
    "C108_reports",
    "C108_wrong_file",
    "C108_tidy",
    "C108_status",
    "C108_order",
    "C108_completes",
    "C108_parse_error_refuted",
    "C108_order_of_values_refuted"
   ],
   "note": "The order of words: C108_order is stated for command lines that end the options with a double hyphen (file names may follow or not)."
  },
  {
   "property": "C109",
   "status": "proved",
   "theorems": [
    "C109_gzip_session",
    "C109_gzip_headers",
    "C109_gzip_determined",
    "C109_spdy3_session",
    "C109_spdy3_determined",
    "C109_simple_huffman_same",
    "C109_simple_huffman_session",
    "C109_without_start_refuted",
    "C109_short_blocks_refuted"
   ],
   "note": "zlib is universally quantified under the contract faithful (Prop_Zlib.v); two streams meeting it are given."
  },
  {
   "property": "C11",
   "status": "proved",
   "theorems": [
    "C11_decoded_text_is_sent_text",
    "C11_different_headers_confused_refuted"
   ],
   "note": "The property is false (witness ('x','yz'), ('xy','z')); the unconditional part, equality of the concatenations, is proved."
  },
  {
   "property": "C110",
   "status": "proved",
   "theorems": [
    "C110_no_report",
    "C110_list",
    "C110_not_sensitive",
    "C110_as_dictionary"
   ],
   "note": "That hpack.Decoder.decode returns a list (not a dictionary) is taken from the package documentation."
  },
  {
   "property": "C111",
   "status": "proved",
   "theorems": [
    "C111_short_conversations",
    "C111_lost_header_refuted",
    "C111_order_refuted",
    "C111_doubled_crumb_refuted",
    "C111_too_long"
   ],
   "note": "At the level of operations; the octets in between are those of C60-C64. The refuted parts are witnesses against the statement without the size bound."
  },
  {
   "property": "C112",
   "status": "proved",
   "theorems": [
    "C112_text",
    "C112_text_tells",
    "C112_caret",
    "C112_caret_under_a_bit_refuted"
   ],
   "note": "The cases of bit_bucket_test.py are an Example."
  },
  {
   "property": "C113",
   "status": "proved",
   "theorems": [
    "C113_limits",
    "C113_reserve",
    "C113_store",
    "C113_lookup",
    "C113_lookup_early",
    "C113_lookup_from_one",
    "C113_lookup_refuted"
   ],
   "note": "C113_lookup says which entry comes in every case. Cases of lrustorage_test.py are Examples."
  },
  {
   "property": "C114",
   "status": "proved",
   "theorems": [
    "C114_ids_fresh",
    "C114_ids_run_out",
    "C114_ids_refuted"
   ],
   "note": ""
  },
  {
   "property": "C115",
   "status": "proved",
   "theorems": [
    "C115_counts",
    "C115_wide",
    "C115_sorted_refuted",
    "C115_table_text",
    "C115_pairs"
   ],
   "note": "C115_table_text for pairs of at most 58 characters, that is counts below 10^47."
  },
  {
   "property": "C116",
   "status": "proved",
   "theorems": [
    "C116_counted_once",
    "C116_empty",
    "C116_counts_places",
    "C116_reserve_refuted"
   ],
   "note": "The key and value of an entry are supposed to be in different cells. The codec itself escapes the second half because each string it stores has a reference that is never let go (C25: such strings are not counted at all)."
  },
  {
   "property": "C117",
   "status": "proved",
   "theorems": [
    "C117_frame_size",
    "C117_header_size"
   ],
   "note": "Frames that the codec writes; with Huffman coding the strings are not covered."
  },
  {
   "property": "C118",
   "status": "proved",
   "theorems": [
    "C118_bits",
    "C118_session",
    "C118_index_size"
   ],
   "note": "The octets of delta2 messages, of any length, related to operations by inductive definitions that do not use the model of the writer."
  },
  {
   "property": "C119",
   "status": "proved",
   "theorems": [
    "C119_octets",
    "C119_session"
   ],
   "note": "The octets of delta messages, of any length, related to instructions by inductive definitions that do not use the model of the writer."
  },
  {
   "property": "C12",
   "status": "proved",
   "theorems": [
    "C12_tables_agree",
    "C12_accounting_arbitrary_input",
    "C12_size_bound_refuted"
   ],
   "note": "The bound by the maximum is false for arbitrary bytes; proved bound: twice the maximum plus the longest frame."
  },
  {
   "property": "C120",
   "status": "proved",
   "theorems": [
    "C120_octets",
    "C120_message"
   ],
   "note": "The octets of delta_bohe messages and the choice of instructions, by inductive definitions that do not use the model of the writer."
  },
  {
   "property": "C121",
   "status": "proved",
   "theorems": [
    "C121_shortened",
    "C121_same_site",
    "C121_digits_refuted",
    "C121_sites_refuted",
    "C121_delta2_groups",
    "C121_delta_groups",
    "C121_shared"
   ],
   "note": "The replacement in host names is modelled as the backtracking match of the regular expression and described by labels; the expected separation of sites is refuted by witnesses."
  },
  {
   "property": "C122",
   "status": "proved",
   "theorems": [
    "C122_status",
    "C122_text",
    "C122_registered_refuted"
   ],
   "note": "Against a table of the registered phrases that is not the code's table; which of them are missing is exact."
  },
  {
   "property": "C123",
   "status": "proved",
   "theorems": [
    "C123_limits",
    "C123_lookup",
    "C123_no_dangling",
    "C123_forgotten"
   ],
   "note": "The table inside the codec is shown to be a run of the table of C113 with the limits that Storage gives it."
  },
  {
   "property": "C124",
   "status": "proved",
   "theorems": [
    "C124_octets",
    "C124_inserted",
    "C124_group_refused",
    "C124_message",
    "C124_sites",
    "C124_256th"
   ],
   "note": "strip_conn_headers, which is imported from a module that does not define it, is any function on headers. Keys and encoded values are octets. C124_limit_case runs 256 sites."
  },
  {
   "property": "C125",
   "status": "proved",
   "theorems": [
    "C125_as_bohe",
    "C125_dates",
    "C125_same_span",
    "C125_other_span",
    "C125_response_cachecontrol",
    "C125_indistinct",
    "C125_old_dates_refuted"
   ],
   "note": "What the octets of bohe are is stated in C89 and C90. Directives of Cache-Control are lower-case words, numbers in decimal digits, as in C89."
  },
  {
   "property": "C126",
   "status": "proved",
   "theorems": [
    "C126_ends",
    "C126_session",
    "C126_overstated"
   ],
   "note": "The child is any function of the lines it took; messages are one block of lines (C86_headers says which headers make one). Eight octets in the order of little-endian machines."
  },
  {
   "property": "C127",
   "status": "proved",
   "theorems": [
    "C127_read",
    "C127_conversations",
    "C127_binary_refuted"
   ],
   "note": "Reading is delta v1's code (D1Wire_Model); that the longest message of such a conversation fits a frame is proved from the code words of the shipped tables."
  },
  {
   "property": "C128",
   "status": "proved",
   "theorems": [
    "C128_read",
    "C128_binary_refuted"
   ],
   "note": "Reading a block is delta v1's code (D1Wire_Model); the frame has no group.  C129 executes the operations."
  },
  {
   "property": "C129",
   "status": "proved",
   "theorems": [
    "C129_keeps_up",
    "C129_conversations",
    "C129_headers"
   ],
   "note": "Text headers only: C128_binary_refuted shows that binary values cannot be read back.  When a session outgrows the table a header of the message itself can be thrown out by both sides; C129_keeps_up then says that what arrives was sent, not that all of it arrives."
  },
  {
   "property": "C13",
   "status": "proved",
   "theorems": [
    "C13_huffman_strings",
    "C13_huffman_decode_total",
    "C13_single_symbol_raises",
    "C13_huffman_strings_ok",
    "C13_huffman_writes_octets",
    "C13_headerdiff_huffman_session"
   ],
   "note": "Every statistics table; also for the two tables of the code, in any dict order, which carries the session theorem C10 over to Huffman mode."
  },
  {
   "property": "C14",
   "status": "proved",
   "theorems": [
    "C14_huffman_optimal"
   ],
   "note": "Against every prefix-free code for the same symbols (Kraft), not only trees."
  },
  {
   "property": "C15",
   "status": "proved",
   "theorems": [
    "C15_inflater_input",
    "C15_inflater_input_refuted",
    "C15_without_header_works"
   ],
   "note": "The property is false: for every message and every deflater the inflater receives eight more octets."
  },
  {
   "property": "C16",
   "status": "proved",
   "theorems": [
    "C16_bucket_is_bit_queue",
    "C16_first_in_first_out"
   ],
   "note": "refinement for every interleaving; first-in first-out as a corollary"
  },
  {
   "property": "C17",
   "status": "proved",
   "theorems": [
    "C17_fixed_width_stores",
    "C17_single_bits",
    "C17_store22_writes_30_bits",
    "C17_store22_refuted"
   ],
   "note": "4, 8, 16 and 32 bits hold at every alignment; 22 bits refuted"
  },
  {
   "property": "C18",
   "status": "proved",
   "theorems": [
    "C18_varint_roundtrip",
    "C18_negative"
   ],
   "note": "every number, alignment and following bits"
  },
  {
   "property": "C19",
   "status": "proved",
   "theorems": [
    "C19_prefix_free",
    "C19_roundtrip",
    "C19_shipped_tables",
    "C19_bit_count"
   ],
   "note": "for every table the constructor accepts, every iteration order; the shipped tables with the order CPython 2.7 uses"
  },
  {
   "property": "C20",
   "status": "proved",
   "theorems": [
    "C20_too_few",
    "C20_scaling_never_helps",
    "C20_divisor_irrelevant",
    "C20_construction_refuted"
   ],
   "note": "the full claim is false (Fibonacci counts end in OverflowError); proved: the outcome is decided by the first tree"
  },
  {
   "property": "C21",
   "status": "proved",
   "theorems": [
    "C21_serialised",
    "C21_per_kind"
   ],
   "note": "every coder that can be built, every index width; fits one frame stated as: the octets sent are at most 65536"
  },
  {
   "property": "C22",
   "status": "proved",
   "theorems": [
    "C22_prefix",
    "C22_fragmentation_refuted"
   ],
   "note": "the claim is false (a value of 524288 octets followed by a toggle, with every coder); proved: what arrives is always a beginning of what was sent"
  },
  {
   "property": "C23",
   "status": "proved",
   "theorems": [
    "C23_numbers_unambiguous",
    "C23_translation_bijective",
    "C23_accepts"
   ],
   "note": "every history, every wrap-around, every capacity not larger than the number space"
  },
  {
   "property": "C24",
   "status": "proved",
   "theorems": [
    "C24_session",
    "C24_same_pairs"
   ],
   "note": "every option combination, history, group assignment and iteration order; exact description also when a cookie contains NUL (its pieces are then cut there as well)"
  },
  {
   "property": "C25",
   "status": "proved",
   "theorems": [
    "C25_entries",
    "C25_value_octets",
    "C25_octets_refuted",
    "C25_refcnt_vals_refuted"
   ],
   "note": "the claim about octets is false (keys are never counted; with refcnt_vals values are not counted either); entry bound and value-octet bound proved for every history, also for arbitrary executed instructions"
  },
  {
   "property": "C26",
   "status": "proved",
   "theorems": [
    "C26_ranges_exact",
    "C26_each_once",
    "C26_runs"
   ],
   "note": ""
  },
  {
   "property": "C27",
   "status": "proved",
   "theorems": [
    "C27_ids_fresh",
    "C27_ids_exhausted",
    "C27_ids_in_use_refuted"
   ],
   "note": "holds exactly as long as not all identifiers are in use"
  },
  {
   "property": "C28",
   "status": "proved",
   "theorems": [
    "C28_passes_harness_check",
    "C28_with_nul",
    "C28_nul_in_cookie_refuted"
   ],
   "note": "with a NUL in the cookie the check fails unless cutting there leaves the same set of pieces; witness a NUL b"
  },
  {
   "property": "C29",
   "status": "proved",
   "theorems": [
    "C29_seven_exact",
    "C29_seven_refuted"
   ],
   "note": "proved exactly for texts the packing can represent; refuted otherwise"
  },
  {
   "property": "C30",
   "status": "proved",
   "theorems": [
    "C30_simple_session",
    "C30_simple_seven_session",
    "C30_simple_dates_session",
    "C30_simple_passes_harness_check",
    "C30_simple_names_refuted"
   ],
   "note": "whole sessions, for well-formed header dictionaries; names the wire format cannot carry refute the unrestricted claim"
  },
  {
   "property": "C31",
   "status": "proved",
   "theorems": [
    "C31_http1_request_roundtrip",
    "C31_http1_response_roundtrip",
    "C31_http1_passes_harness_check",
    "C31_http1_empty_path_refuted"
   ],
   "note": "proved for well-formed dictionaries; empty path and multi-line values are refuted"
  },
  {
   "property": "C32",
   "status": "proved",
   "theorems": [
    "C32_spdy3_block_determines_headers",
    "C32_spdy3_format_total",
    "C32_spdy3_frame"
   ],
   "note": ""
  },
  {
   "property": "C33",
   "status": "proved",
   "theorems": [
    "C33_compare_headers_verdict",
    "C33_compare_headers_equivalence",
    "C33_compare_headers_lists_differences"
   ],
   "note": "all dictionaries, all set orders"
  },
  {
   "property": "C34",
   "status": "proved",
   "theorems": [
    "C34_filter_headers_exact"
   ],
   "note": ""
  },
  {
   "property": "C35",
   "status": "proved",
   "theorems": [
    "C35_sessions_isolated"
   ],
   "note": "all families of deterministic processors, all session lists"
  },
  {
   "property": "C36",
   "status": "proved",
   "theorems": [
    "C36_parameterised_baseline_refuted",
    "C36_parameterised_baseline_never_works"
   ],
   "note": "claim refuted; moreover it never works, for any processors"
  },
  {
   "property": "C37",
   "status": "proved",
   "theorems": [
    "C37_grouping_partitions",
    "C37_host_streams",
    "C37_all_one"
   ],
   "note": ""
  },
  {
   "property": "C38",
   "status": "proved",
   "theorems": [
    "C38_total_is_sum",
    "C38_sessions_unchanged_except_first_messages",
    "C38_sessions_intact_refuted"
   ],
   "note": "sum proved; \"sessions intact\" refuted, with what remains true proved"
  },
  {
   "property": "C39",
   "status": "proved",
   "theorems": [
    "C39_process_headers_exact"
   ],
   "note": ""
  },
  {
   "property": "C40",
   "status": "proved",
   "theorems": [
    "C40_host_header_used_refuted",
    "C40_url_always_overrides_host_header"
   ],
   "note": "claim refuted; the URL wins for every request"
  },
  {
   "property": "C41",
   "status": "proved",
   "theorems": [
    "C41_uvarint_reads_back",
    "C41_uvarint_unique",
    "C41_uvarint_list_unique"
   ],
   "note": ""
  },
  {
   "property": "C42",
   "status": "proved",
   "theorems": [
    "C42_ranges",
    "C42_roundtrip",
    "C42_writes",
    "C42_exactly",
    "C42_257th_lost",
    "C42_over_256_refuted"
   ],
   "note": "False above 256 of a kind, as expected: C42_over_256_refuted; C42_exactly says for messages of one frame exactly when what was written is read."
  },
  {
   "property": "C43",
   "status": "proved",
   "theorems": [
    "C43_find_sound",
    "C43_find_newest",
    "C43_find_complete_refuted"
   ],
   "note": "claim refuted; soundness and the case in which it does find the entry proved"
  },
  {
   "property": "C44",
   "status": "proved",
   "theorems": [
    "C44_har_pairs"
   ],
   "note": ""
  },
  {
   "property": "C45",
   "status": "proved",
   "theorems": [
    "C45_host_of_url_is_authority",
    "C45_final_newline",
    "C45_other_urls",
    "C45_host_of_url_without_path_refuted"
   ],
   "note": "proved for URLs with a slash after the authority; a final newline is kept, and all other texts are left whole, so refuted for URLs without that slash"
  },
  {
   "property": "C46",
   "status": "proved",
   "theorems": [
    "C46_simple_date_option_refuted"
   ],
   "note": "refuted; for dates that the conversion round trips C30_simple_dates_session holds"
  },
  {
   "property": "C47",
   "status": "proved",
   "theorems": [
    "C47_headerdiff_passes_harness_check",
    "C47_headerdiff_check_refuted"
   ],
   "note": "With the two provisos of the statement; refuted without the one on concatenations."
  },
  {
   "property": "C48",
   "status": "proved",
   "theorems": [
    "C48_built_iff_depths_iterate_ascending",
    "C48_cpython_refuted"
   ],
   "note": "the full claim is false (200 equal counts raise ValueError in CPython 2.7 order); proved: succeeds exactly if the lengths come in ascending order"
  },
  {
   "property": "C49",
   "status": "proved",
   "theorems": [
    "C49_har_fields"
   ],
   "note": "every entry; the rest of the dictionary is described by C39"
  },
  {
   "property": "C50",
   "status": "proved",
   "theorems": [
    "C50_built_iff_numbered",
    "C50_roundtrip",
    "C50_optimal",
    "C50_shipped_tables"
   ],
   "note": ""
  },
  {
   "property": "C51",
   "status": "proved",
   "theorems": [
    "C51_prefix",
    "C51_fragmentation_refuted"
   ],
   "note": "False as expected for long messages, for every coder."
  },
  {
   "property": "C52",
   "status": "proved",
   "theorems": [
    "C52_session",
    "C52_same_pairs",
    "C52_passes_harness_check"
   ],
   "note": "at most 128 pieces per message and one frame per message; beyond that C42/C51 say what is lost"
  },
  {
   "property": "C53",
   "status": "proved",
   "theorems": [
    "C53_never_raises",
    "C53_too_long_raises",
    "C53_left_over_name_raises"
   ],
   "note": "False as expected; C53_never_raises gives sufficient conditions for whole sessions."
  },
  {
   "property": "C54",
   "status": "proved",
   "theorems": [
    "C54_entries",
    "C54_octets_refuted"
   ],
   "note": "The number of entries is kept for every session; the limit on octets is not."
  },
  {
   "property": "C55",
   "status": "proved",
   "theorems": [
    "C55_order_refuted",
    "C55_one_group",
    "C55_own_group_refuted"
   ],
   "note": "False as expected for two groups, true for one group."
  },
  {
   "property": "C56",
   "status": "proved",
   "theorems": [
    "C56_output_determines_headers",
    "C56_text_headers_determined",
    "C56_long_name_refuted",
    "C56_binary_length_refuted"
   ],
   "note": "False in general as expected, for every behaviour of the library; true for expressible headers."
  },
  {
   "property": "C57",
   "status": "proved",
   "theorems": [
    "C57_binary_values_refuted",
    "C57_numbers_kept",
    "C57_methods_kept",
    "C57_dates_kept"
   ],
   "note": "False in general as expected; true for plain numbers, methods and dates."
  },
  {
   "property": "C58",
   "status": "proved",
   "theorems": [
    "C58_when_compress_raises",
    "C58_numeric_headers",
    "C58_never_raises_refuted"
   ],
   "note": ""
  },
  {
   "property": "C59",
   "status": "proved",
   "theorems": [
    "C59_output_size"
   ],
   "note": ""
  },
  {
   "property": "C60",
   "status": "proved",
   "theorems": [
    "C60_repeated_message",
    "C60_doubled_crumb_refuted"
   ],
   "note": "True for different pairs; false with a doubled crumb, as expected."
  },
  {
   "property": "C61",
   "status": "proved",
   "theorems": [
    "C61_small_sessions",
    "C61_new_pair_twice",
    "C61_long_value",
    "C61_full_table"
   ],
   "note": "The last three show what raises."
  },
  {
   "property": "C62",
   "status": "proved",
   "theorems": [
    "C62_dead_after_exception",
    "C62_encoder_raises"
   ],
   "note": ""
  },
  {
   "property": "C63",
   "status": "proved",
   "theorems": [
    "C63_numbers_run_out"
   ],
   "note": ""
  },
  {
   "property": "C64",
   "status": "proved",
   "theorems": [
    "C64_text_output_determines_pairs",
    "C64_unframed_values_refuted"
   ],
   "note": "False with binary values as expected; true for text."
  },
  {
   "property": "C65",
   "status": "proved",
   "theorems": [
    "C65_pairs_kept",
    "C65_octet_limit_refuted"
   ],
   "note": ""
  },
  {
   "property": "C66",
   "status": "proved",
   "theorems": [
    "C66_hostile"
   ],
   "note": ""
  },
  {
   "property": "C67",
   "status": "proved",
   "theorems": [
    "C67_cut",
    "C67_short",
    "C67_extended",
    "C67_truncation_refuted"
   ],
   "note": "False as expected; what happens at every cut is proved."
  },
  {
   "property": "C68",
   "status": "proved",
   "theorems": [
    "C68_exceptions",
    "C68_limits",
    "C68_exception_confined",
    "C68_same_decompressor"
   ],
   "note": ""
  },
  {
   "property": "C69",
   "status": "proved",
   "theorems": [
    "C69_bounded",
    "C69_bounded_refuted",
    "C69_steps"
   ],
   "note": "False with variable-length indices as expected; true otherwise."
  },
  {
   "property": "C70",
   "status": "proved",
   "theorems": [
    "C70_blocked"
   ],
   "note": ""
  },
  {
   "property": "C71",
   "status": "proved",
   "theorems": [
    "C71_outcomes"
   ],
   "note": ""
  },
  {
   "property": "C72",
   "status": "proved",
   "theorems": [
    "C72_cut",
    "C72_cut_detected_refuted"
   ],
   "note": "The claim is false as expected; C72_cut says exactly what a cut can do."
  },
  {
   "property": "C73",
   "status": "proved",
   "theorems": [
    "C73_substitution",
    "C73_front_refuted"
   ],
   "note": "The last part is false as expected."
  },
  {
   "property": "C74",
   "status": "proved",
   "theorems": [
    "C74_outcomes"
   ],
   "note": ""
  },
  {
   "property": "C75",
   "status": "proved",
   "theorems": [
    "C75_cut",
    "C75_huffman_cut_detected",
    "C75_cut_detected_refuted"
   ],
   "note": "False without Huffman coding as expected."
  },
  {
   "property": "C76",
   "status": "proved",
   "theorems": [
    "C76_over_limit_for_ever",
    "C76_one_frame_suffices"
   ],
   "note": ""
  },
  {
   "property": "C77",
   "status": "proved",
   "theorems": [
    "C77_options",
    "C77_streams",
    "C77_totals",
    "C77_sessions",
    "C77_tsv",
    "C77_tsv_names_refuted"
   ],
   "note": "The name column is not always the stream name, as expected; C77_tsv says what it is."
  },
  {
   "property": "C78",
   "status": "proved",
   "theorems": [
    "C78_between"
   ],
   "note": ""
  },
  {
   "property": "C79",
   "status": "proved",
   "theorems": [
    "C79_completes",
    "C79_grouping",
    "C79_host",
    "C79_public_suffix",
    "C79_all_one",
    "C79_always_completes_refuted"
   ],
   "note": "That it always completes is false as expected; the others say exactly when it does."
  },
  {
   "property": "C80",
   "status": "proved",
   "theorems": [
    "C80_python2",
    "C80_python3",
    "C80_made",
    "C80_never",
    "C80_every_codec_refuted",
    "C80_run"
   ],
   "note": "False as expected; the theorems say which codecs load, under which Python, and that a run with any other cannot complete."
  },
  {
   "property": "C81",
   "status": "proved",
   "theorems": [
    "C81_request",
    "C81_response",
    "C81_passes_harness_check",
    "C81_ascii_notions_refuted"
   ],
   "note": "C31 for Unicode texts, for any notion of white space containing the ASCII one and no visible ASCII character and any lower-casing; with ASCII notions of well-formedness it is false, as expected."
  },
  {
   "property": "C82",
   "status": "proved",
   "theorems": [
    "C82_hostile",
    "C82_shipped"
   ],
   "note": ""
  },
  {
   "property": "C83",
   "status": "proved",
   "theorems": [
    "C83_cut",
    "C83_decompressor",
    "C83_extended",
    "C83_short"
   ],
   "note": ""
  },
  {
   "property": "C84",
   "status": "proved",
   "theorems": [
    "C84_repeat",
    "C84_repetitions",
    "C84_room_needed_refuted"
   ],
   "note": ""
  },
  {
   "property": "C85",
   "status": "proved",
   "theorems": [
    "C85_repeat",
    "C85_repeated_name_refuted",
    "C85_room_needed_refuted"
   ],
   "note": ""
  },
  {
   "property": "C86",
   "status": "proved",
   "theorems": [
    "C86_ends",
    "C86_session",
    "C86_headers",
    "C86_blank_line_deadlock_refuted",
    "C86_blank_line_lockstep_refuted"
   ],
   "note": "Python 2 pipes; small-step model of the two processes with every interleaving. The class cannot be loaded as shipped (C80), so it is taken in isolation, without strip_conn_headers. Refuted for values with an empty line inside: answers fall out of step, and a deadlock exists for every pair of capacities."
  },
  {
   "property": "C87",
   "status": "proved",
   "theorems": [
    "C87_settled",
    "C87_three_times",
    "C87_without_room_refuted",
    "C87_only_etoggles_refuted"
   ],
   "note": "Room counts every pair of the message, also those already in the static table. Refuted without room and with only ephemeral toggles; the adjusting of groups (hg_adjust) is excluded by hypothesis."
  },
  {
   "property": "C88",
   "status": "proved",
   "theorems": [
    "C88_text",
    "C88_size",
    "C88_repeated",
    "C88_raises"
   ],
   "note": "Date option off. The order of the lines after the first is that of a Python dictionary and left open; what each line is, and the total length, is fixed."
  },
  {
   "property": "C89",
   "status": "proved",
   "theorems": [
    "C89_layout",
    "C89_numbers",
    "C89_dates",
    "C89_accept",
    "C89_etag",
    "C89_etag_size",
    "C89_p3p",
    "C89_p3p_raises",
    "C89_cachecontrol",
    "C89_p3p_kept_refuted"
   ],
   "note": "Library calls (strptime, md5, werkzeug parsers) are parameters. C89_cachecontrol is about directives of visible lower-case letters with blanks in front. Refuted: P3P policies are not kept."
  },
  {
   "property": "C90",
   "status": "proved",
   "theorems": [
    "C90_value",
    "C90_value_raises",
    "C90_cookie",
    "C90_cookie_raises",
    "C90_cookie_determines",
    "C90_setcookie",
    "C90_cookie_kept_refuted"
   ],
   "note": "BaseCookie and parse_dict_header are parameters; the regular expressions, the hex and base64 decoders and both encoders are modelled."
  },
  {
   "property": "C91",
   "status": "proved",
   "theorems": [
    "C91_options",
    "C91_raises",
    "C91_parameters",
    "C91_every_list",
    "C91_shown"
   ],
   "note": "C91_shown_alike shows why names with a full stop are left out. Importing the module named is not modelled here."
  },
  {
   "property": "C92",
   "status": "proved",
   "theorems": [
    "C92_integers",
    "C92_no_integer",
    "C92_http2",
    "C92_http2_raises",
    "C92_headerdiff",
    "C92_headerdiff_other_words",
    "C92_delta2",
    "C92_delta2_bare",
    "C92_delta2_entries",
    "C92_delta_sizes",
    "C92_delta_raises",
    "C92_simple",
    "C92_fork",
    "C92_spdy3"
   ],
   "note": "Python long integers are not told from int; the integers of int() are those of byte strings."
  },
  {
   "property": "C93",
   "status": "proved",
   "theorems": [
    "C93_clone_names",
    "C93_sent",
    "C93_octet_limit_refuted"
   ],
   "note": "C93_clone_names is about a message of one clone in a fresh group. Refuted: the octet limit; the counter reaches -5."
  },
  {
   "property": "C94",
   "status": "proved",
   "theorems": [
    "C94_table",
    "C94_names",
    "C94_any_octets"
   ],
   "note": "State after a refused message is not modelled; messages that toggle a default entry (tuple values) are excluded."
  },
  {
   "property": "C95",
   "status": "proved",
   "theorems": [
    "C95_choice",
    "C95_max_deltas"
   ],
   "note": "The description (HD_Choice, Specification) uses only the headers and a list of what both ends remember; integers are those of C09."
  },
  {
   "property": "C96",
   "status": "proved",
   "theorems": [
    "C96_frames",
    "C96_remembered_fits"
   ],
   "note": "The description (HTTP2_Choice, Specification) uses only the headers and a list of what both ends remember; integers are those of C01."
  },
  {
   "property": "C97",
   "status": "proved",
   "theorems": [
    "C97_instructions",
    "C97_text_only_if_needed",
    "C26_runs"
   ],
   "note": "Which of several visible entries with the same text is kept depends on the iteration order of a set, so the description leaves it open; everything else is determined."
  },
  {
   "property": "C98",
   "status": "proved",
   "theorems": [
    "C98_optimal",
    "C98_canonical",
    "C98_shipped_tables"
   ],
   "note": "Weights are exact rationals in the model (floats in the program); see DESIGN.md."
  },
  {
   "property": "C99",
   "status": "proved",
   "theorems": [
    "C99_instructions",
    "C99_not_in_table",
    "C99_text_only_if_needed"
   ],
   "note": "For at most 65534 learnt names, after which numbers would wrap around."
  }
 ]
}