{
 "claims": [
  {
   "property": "C01",
   "status": "proved",
   "theorems": [
    "C01_encode_bit_positions"
   ],
   "note": "messages built strictly with the default sort order, distinct names, no negative start bit"
  },
  {
   "property": "C02",
   "status": "proved",
   "theorems": [
    "C02_frame_length_and_unused_bits",
    "C02_padding_keeps_signal_bits"
   ],
   "note": ""
  },
  {
   "property": "C03",
   "status": "proved",
   "theorems": [
    "C03_decode_positions",
    "C03_decode_never_fails"
   ],
   "note": "decode_choices=False, scaling=False"
  },
  {
   "property": "C04",
   "status": "proved",
   "theorems": [
    "C04_raw_round_trip",
    "C04_float_selector_refuted"
   ],
   "note": "multiplexer values given as integers or texts (C04_float_selector_refuted shows this is needed); float values must have an encoding of the signal's width"
  },
  {
   "property": "C05",
   "status": "proved",
   "theorems": [
    "C05_payload_round_trip"
   ],
   "note": "NaN payloads excluded: NaN bit patterns are not modelled"
  },
  {
   "property": "C06",
   "status": "proved",
   "theorems": [
    "C06_frame_bits_independent",
    "C06_decoded_values_independent"
   ],
   "note": ""
  },
  {
   "property": "C07",
   "status": "proved",
   "theorems": [
    "C07_encode_iff_encodable",
    "C07_no_silent_truncation"
   ],
   "note": ""
  },
  {
   "property": "C08",
   "status": "proved",
   "theorems": [
    "C08_strict_check_iff",
    "C08_duplicate_names_refuted"
   ],
   "note": "signal names distinct (C08_duplicate_names_refuted shows this is needed), start bits not negative"
  },
  {
   "property": "C09",
   "status": "proved",
   "theorems": [
    "C09_constructor_checks",
    "C09_start_bit_inside_frame_refuted",
    "C09_frame_id_nonnegative_refuted"
   ],
   "note": "the clause on start bits is refuted by C09_start_bit_inside_frame_refuted"
  },
  {
   "property": "C10",
   "status": "proved",
   "theorems": [
    "C10_encode_uses_known_selectors",
    "C10_unselected_values_irrelevant",
    "C10_encode_unknown_id",
    "C10_decode_unknown_id"
   ],
   "note": ""
  },
  {
   "property": "C11",
   "status": "proved",
   "theorems": [
    "C11_gather_iff",
    "C11_gather_exact",
    "C11_gather_error"
   ],
   "note": ""
  },
  {
   "property": "C12",
   "status": "proved",
   "theorems": [
    "C12_strict_encode_iff"
   ],
   "note": "range tolerance in Python float arithmetic as documented in the code"
  },
  {
   "property": "C13",
   "status": "proved",
   "theorems": [
    "C13_truncated_decode"
   ],
   "note": ""
  },
  {
   "property": "C14",
   "status": "proved",
   "theorems": [
    "C14_wrong_size",
    "C14_excess_ignored"
   ],
   "note": ""
  },
  {
   "property": "C15",
   "status": "proved",
   "theorems": [
    "C15_order_irrelevant",
    "C15_unsorted_order_irrelevant_refuted"
   ],
   "note": "the claim for sort_signals=None is refuted by C15_unsorted_order_irrelevant_refuted"
  },
  {
   "property": "C16",
   "status": "proved",
   "theorems": [
    "C16_raw_round_trip",
    "C16_grid_round_trip",
    "C16_injective",
    "C16_zero_scale"
   ],
   "note": ""
  },
  {
   "property": "C17",
   "status": "proved",
   "theorems": [
    "C17_float_round_trip",
    "C17_scaled_value",
    "C17_large_raw_refuted"
   ],
   "note": "raw values up to 2^49 with |offset| <= 2^48 |scale| and scale magnitude within 2^-900..2^900; C17_large_raw_refuted shows that the bound is needed. Uses the axioms of Coq.Reals"
  },
  {
   "property": "C18",
   "status": "proved",
   "theorems": [
    "C18_table_round_trip",
    "C18_without_entry",
    "C18_duplicate_text_refuted",
    "C18_float_entry_refuted"
   ],
   "note": "float signals look up the truncated raw value (C18_float_entry_refuted); duplicated texts lose the raw value (C18_duplicate_text_refuted)"
  },
  {
   "property": "C19",
   "status": "proved",
   "theorems": [
    "C19_assignments_rebuild",
    "C19_attributes",
    "C19_integral_float_refuted"
   ],
   "note": "scales and offsets are ints or non-integral floats; for integral floats such as 3.0 the claim is refuted by C19_integral_float_refuted"
  },
  {
   "property": "C20",
   "status": "proved",
   "theorems": [
    "C20_scaled_round_trip",
    "C20_scaled_encode_succeeds",
    "C20_scaling_inverts",
    "C20_raw_float_inverts"
   ],
   "note": "C20_scaling_inverts and C20_raw_float_inverts give the conversions for which the hypothesis holds. The inverting lemma for fractional scales uses the axioms of Coq.Reals"
  },
  {
   "property": "C21",
   "status": "proved",
   "theorems": [
    "C21_round_trip",
    "C21_values_round_trip",
    "C21_length_unchecked_refuted"
   ],
   "note": "header ids unique within the container and listed once; encode does not check the total length of the container (C21_length_unchecked_refuted)"
  },
  {
   "property": "C22",
   "status": "proved",
   "theorems": [
    "C22_unpack_total",
    "C22_overlong_rejected",
    "C22_too_long_rejected",
    "C22_lossless",
    "C22_decode_total"
   ],
   "note": ""
  },
  {
   "property": "C23",
   "status": "proved",
   "theorems": [
    "C23_little_endian_ids_swapped",
    "C23_little_endian_round_trip_refuted"
   ],
   "note": "the round trip for little endian headers is refuted by C23_little_endian_round_trip_refuted"
  },
  {
   "property": "C24",
   "status": "proved",
   "theorems": [
    "C24_lookup",
    "C24_by_name_hit",
    "C24_small_extended_refuted"
   ],
   "note": "frame ids and looked up ids not negative and below 2^31; an extended message with an id up to 0x7FF is only found with force_extended_id (C24_small_extended_refuted)"
  },
  {
   "property": "C25",
   "status": "proved",
   "theorems": [
    "C25_covered_ids",
    "C25_uncovered_ids",
    "C25_without_mask",
    "C25_mask_refuted"
   ],
   "note": "refuted for masks that do not cover the id (C25_mask_refuted)"
  },
  {
   "property": "C26",
   "status": "proved",
   "theorems": [
    "C26_sawtooth_network",
    "C26_network_successive",
    "C26_cdd_offset",
    "C26_unaligned_refuted"
   ],
   "note": "big endian fields crossing a byte boundary at an unaligned offset are refuted by C26_unaligned_refuted"
  },
  {
   "property": "C27",
   "status": "proved",
   "theorems": [
    "C27_encode",
    "C27_decode",
    "C27_round_trip",
    "C27_unsorted_refuted"
   ],
   "note": "datas listed in ascending bit order; C27_unsorted_refuted shows this is needed"
  },
  {
   "property": "C28",
   "status": "proved",
   "theorems": [
    "C28_pack",
    "C28_unpack",
    "C28_inverse"
   ],
   "note": ""
  },
  {
   "property": "C29",
   "status": "proved",
   "theorems": [
    "C29_pack",
    "C29_unpack",
    "C29_inverse",
    "C29_from_frame_id",
    "C29_independent"
   ],
   "note": ""
  },
  {
   "property": "C30",
   "status": "proved",
   "theorems": [
    "C30_profile2",
    "C30_profile2_total",
    "C30_profile5"
   ],
   "note": "the CRC functions of the crccheck library are modelled from their published parameters (trusted)"
  },
  {
   "property": "C31",
   "status": "proved",
   "theorems": [
    "C31_profile2",
    "C31_profile5_one_byte",
    "C31_profile5_two_bytes",
    "C31_straddling_refuted",
    "C31_counter_refuted"
   ],
   "note": "C31_straddling_refuted and C31_counter_refuted show the limits; the CRC functions of the crccheck library are modelled (trusted)"
  },
  {
   "property": "C32",
   "status": "proved",
   "theorems": [
    "C32_apply",
    "C32_verify",
    "C32_apply_verifies",
    "C32_trailer_change_detected"
   ],
   "note": "the authenticator is an arbitrary function of the secured data and the freshness value; the settings must be usable (secoc_ok: every part has a positive size and the trailer fits)"
  },
  {
   "property": "C33",
   "status": "proved",
   "theorems": [
    "C33_no_loss",
    "C33_reception",
    "C33_other_bus_refuted",
    "C33_short_frame_refuted"
   ],
   "note": "python-can delivers frames to the listener in order (trusted); refuted for ids shared with a message of another bus (C33_other_bus_refuted) and for too short frames (C33_short_frame_refuted)"
  },
  {
   "property": "C34",
   "status": "proved",
   "theorems": [
    "C34_expect",
    "C34_found",
    "C34_multiplexed_refuted"
   ],
   "note": "expected signals must exist in every message of that name that is looked at; otherwise refuted by C34_multiplexed_refuted"
  },
  {
   "property": "C35",
   "status": "proved",
   "theorems": [
    "C35_stop",
    "C35_periodic",
    "C35_enable_twice_refuted",
    "C35_start_twice_refuted",
    "C35_enable_sends_dut_refuted"
   ],
   "note": "python-can periodic tasks are modelled as records with a running flag and a frame (trusted); without the guards refuted by C35_enable_twice_refuted, C35_start_twice_refuted, C35_enable_sends_dut_refuted"
  },
  {
   "property": "C36",
   "status": "proved",
   "theorems": [
    "C36_in_sync",
    "C36_update_restores",
    "C36_send",
    "C36_failed_update_refuted",
    "C36_delete_refuted",
    "C36_ior_refuted"
   ],
   "note": "histories with a failed update, del or |= are refuted by C36_failed_update_refuted, C36_delete_refuted, C36_ior_refuted"
  },
  {
   "property": "C37",
   "status": "proved",
   "theorems": [
    "C37_ways",
    "C37_message"
   ],
   "note": ""
  },
  {
   "property": "C38",
   "status": "proved",
   "theorems": [
    "C38_pack_struct",
    "C38_pack",
    "C38_size",
    "C38_float16_refuted",
    "C38_long_refuted",
    "C38_fractional_mux_refuted"
   ],
   "note": "C38_pack (agreement with encode), C38_pack_struct (all structs), C38_size. Refuted without the conditions: 16 bit floats, signals over 64 bits, fractional multiplexer values. Struct members as bit fields (option bit_fields) are not modelled."
  },
  {
   "property": "C39",
   "status": "proved",
   "theorems": [
    "C39_size",
    "C39_unpack",
    "C39_bit_fields",
    "C39_unpack_decode",
    "C39_round_trip",
    "C39_unknown_mux_refuted",
    "C39_member_clash_refuted"
   ],
   "note": "C39_unpack, C39_unpack_decode, C39_round_trip, C39_size. Refuted: unknown multiplexer values are accepted silently; distinct names may give the same struct member."
  },
  {
   "property": "C40",
   "status": "proved",
   "theorems": [
    "C40_is_in_range",
    "C40_negative_scale_refuted",
    "C40_off_grid_refuted",
    "C40_unsigned_refuted"
   ],
   "note": "C40_is_in_range under the stated conditions; three refutations for what it excludes. Float signals' checks not modelled."
  },
  {
   "property": "C41",
   "status": "proved",
   "theorems": [
    "C41_unique_choices",
    "C41_macros",
    "C41_two_signals_refuted"
   ],
   "note": "C41_unique_choices, C41_macros; C41_two_signals_refuted for macros of two signals."
  },
  {
   "property": "C42",
   "status": "proved",
   "theorems": [
    "C42_candump",
    "C42_candump_timestamped",
    "C42_candump_absolute",
    "C42_candump_log",
    "C42_pcan_v10",
    "C42_pcan_v11",
    "C42_pcan_v12",
    "C42_pcan_v13",
    "C42_pcan_v20",
    "C42_pcan_v21",
    "C42_candump_file",
    "C42_odd_data_refuted",
    "C42_timestamp_refuted",
    "C42_v20_no_data_refuted",
    "C42_truncated_refuted",
    "C42_padded_id_refuted"
   ],
   "note": "Proved for all printed lines of all ten formats. Refuted as stated for damaged lines: odd hexadecimal digits, a timestamp with two points or a version 2.0 line without data column raise; a truncated line is read as a shorter frame; a standard id padded to four digits is read as extended. Timestamps are kept as text: their conversion to datetime or timedelta is not modelled. Text is 8-bit characters."
  },
  {
   "property": "C43",
   "status": "proved",
   "theorems": [
    "C43_first_line_decides",
    "C43_nothing_recognised",
    "C43_complete",
    "C43_keep_unknowns",
    "C43_line_ends"
   ],
   "note": "Proved."
  },
  {
   "property": "C44",
   "status": "proved",
   "theorems": [
    "C44_transparent",
    "C44_transparent_during",
    "C44_user_sort_refuted",
    "C44_local_sort_refuted",
    "C44_cache_directory",
    "C44_same_mtime_refuted",
    "C44_mtime_restored_refuted"
   ],
   "note": "The parsers, pruning and text decoding are arbitrary functions. Transparency holds under the stated conditions on modification times and sort functions; the general claim is refuted by C44_user_sort_refuted, C44_local_sort_refuted, C44_same_mtime_refuted, C44_mtime_restored_refuted. Cached objects are pickled copies; pickling is trusted to be faithful. Relative file names are keys as they are, so a change of the working directory is outside the model."
  },
  {
   "property": "C45",
   "status": "proved",
   "theorems": [
    "C45_terminates",
    "C45_restores",
    "C45_distinct",
    "C45_short_names_kept",
    "C45_length",
    "C45_characters",
    "C45_order",
    "C45_duplicates_refuted",
    "C45_word",
    "C45_word_kept",
    "C45_special_characters_refuted"
   ],
   "note": "The listed names must be pairwise distinct: with duplicates the mapping back is lost (C45_duplicates_refuted), and replacing special characters can merge names (C45_special_characters_refuted)."
  },
  {
   "property": "C46",
   "status": "proved",
   "theorems": [
    "C46_same_ids",
    "C46_maximal"
   ],
   "note": "Ranges are maximal runs and denote exactly the same ids."
  },
  {
   "property": "C47",
   "status": "proved",
   "theorems": [
    "C47_comment",
    "C47_trailing_backslash_refuted",
    "C47_plain_text",
    "C47_unescaped_quote_refuted"
   ],
   "note": "Stated on the tokens of the file text; comments ending in a backslash and unescaped texts holding a quote are refuted."
  },
  {
   "property": "C48",
   "status": "proved",
   "theorems": [
    "C48_frame_id",
    "C48_frame_id_distinct",
    "C48_message_attributes",
    "C48_limits",
    "C48_limits_refuted",
    "C48_cycle_time_refuted",
    "C48_protocol_refuted",
    "C48_frame_format_refuted",
    "C48_send_type_refuted"
   ],
   "note": "The message fields are a corollary of the round trip theorem of C56 (C48_message_attributes); what does not survive is refuted by concrete databases."
  },
  {
   "property": "C49",
   "status": "proved",
   "theorems": [
    "C49_common_prefix",
    "C49_single",
    "C49_values_unchanged",
    "C49_distinct",
    "C49_decode",
    "C49_underscore_refuted",
    "C49_twice_refuted"
   ],
   "note": "Names are ASCII. Refuted parts: C49_underscore_refuted (a lone underscore is not removed), C49_twice_refuted."
  },
  {
   "property": "C50",
   "status": "proved",
   "theorems": [
    "C50_sort_by_start_bit",
    "C50_sort_by_name",
    "C50_sort_by_start_bit_and_mux",
    "C50_sort_by_start_bit_reversed",
    "C50_idempotent",
    "C50_reversed_idempotent_refuted"
   ],
   "note": "stability and idempotence of the reversed sort are refuted"
  },
  {
   "property": "C51",
   "status": "proved",
   "theorems": [
    "C51_signal_tree",
    "C51_listed_signals_active",
    "C51_active_signals_listed"
   ],
   "note": ""
  },
  {
   "property": "C54",
   "status": "proved",
   "theorems": [
    "C54_identifiers",
    "C54_identifier_refuted"
   ],
   "note": "C54_identifiers; C54_identifier_refuted: leading digit and keyword."
  },
  {
   "property": "C52",
   "status": "proved",
   "theorems": [
    "C52_new_name_refuted",
    "C52_decoded_name_refuted",
    "C52_other_choice_refuted"
   ],
   "note": "The claim is false for the code; the theorems are its refutation, one general and two at the level of messages."
  },
  {
   "property": "C55",
   "status": "proved",
   "theorems": [
    "C55_first_format_wins",
    "C55_no_format",
    "C55_given_format",
    "C55_bad_format",
    "C55_extension",
    "C55_no_extension",
    "C55_encoding",
    "C55_given"
   ],
   "note": "os.path.splitext (POSIX) is modelled; the parsers are arbitrary functions."
  },
  {
   "property": "C56",
   "status": "proved",
   "theorems": [
    "C56_round_trip",
    "C56_long_names",
    "C56_half_refuted",
    "C56_keyword_refuted",
    "C56_independent_refuted",
    "C56_bus_refuted",
    "C56_unknown_format_refuted",
    "C56_long_multiplexer_refuted",
    "C56_group_refuted"
   ],
   "note": "Proved for the databases described by good (DbcSame.v) with an abstract float type that obeys FloatLaws (DbcFit.v): finite floats are read back from their text. A concrete instance of the laws and a non-trivial database are given. Tokenizer and grammar are modelled down to characters (ASCII)."
  },
  {
   "property": "C53",
   "status": "proved",
   "theorems": [
    "C53_initial_values",
    "C53_gather",
    "C53_negative_maximum_refuted",
    "C53_value_table_refuted"
   ],
   "note": "Limits must be in order and a maximum alone not negative (C53_negative_maximum_refuted); a multiplexer whose ids come from its value table only may start with an unknown id (C53_value_table_refuted)."
  },
  {
   "property": "C57",
   "status": "proved",
   "theorems": [
    "C57_round_trip",
    "C57_signal_order",
    "C57_comment_refuted",
    "C57_control_character_refuted",
    "C57_nested_multiplexing_refuted",
    "C57_multiplexer_ids_refuted",
    "C57_orphan_refuted",
    "C57_bus_refuted",
    "C57_unknown_node_refuted",
    "C57_lost_refuted"
   ],
   "note": "kcd_fit (KcdProofs.v) lists the conditions; every one that is not about characters has a refutation beside it. The XML layer (XmlProofs.v read_write) is proved for all trees of writable texts."
  },
  {
   "property": "C58",
   "status": "proved",
   "theorems": [
    "C58_auto_length",
    "C58_negative_offset_refuted"
   ],
   "note": "Spec: the signal layout of LayoutSpec fits in n bytes iff the length is at most n. The refutation shows a negative offset."
  },
  {
   "property": "C59",
   "status": "proved",
   "theorems": [
    "C59_identity",
    "C59_integer",
    "C59_general",
    "C59_large_refuted"
   ],
   "note": "nearest is stated with real numbers. Added after the seeded bug cnv2 (identity conversion truncates) survived."
  },
  {
   "property": "C60",
   "status": "proved",
   "theorems": [
    "C60_drawing",
    "C60_every_signal_named",
    "C60_negative_start_refuted"
   ],
   "note": "Proved for all messages whose signals have a positive length and start at or after bit 0; refuted for a signal that starts before bit 0. The place of the word \"Byte\" in the first two columns and the text of the header are modelled but not part of the claim. Trailing white space of names is stripped."
  },
  {
   "property": "C61",
   "status": "proved",
   "theorems": [
    "C61_round_trip",
    "C61_signal_order",
    "C61_gaps_refused",
    "C61_letter_id_refuted",
    "C61_multiplexed_range_refuted",
    "C61_beside_multiplexer_refuted",
    "C61_multiplexer_ids_refuted",
    "C61_nested_multiplexing_refuted",
    "C61_empty_multiplexer_refuted",
    "C61_same_name_refuted",
    "C61_enumeration_name_refuted",
    "C61_half_float_refuted",
    "C61_text_refuted",
    "C61_repeated_id_refuted"
   ],
   "note": "sym_fit (SymProofs.v) lists the conditions; C61_hypotheses shows a database with a multiplexed message and an id range that meets them, and every loss has a refutation beside the theorem. The grammar is proved to read back every file of rows that is written (SymRows.v rows_back)."
  },
  {
   "property": "C62",
   "status": "proved",
   "theorems": [
    "C62_strict",
    "C62_gather",
    "C62_gathered_values"
   ],
   "note": "C62_strict is about Database.encode_message on a container message (encode of can/message.py); C62_gathered_values needs the contained messages to be strict messages."
  },
  {
   "property": "C63",
   "status": "proved",
   "theorems": [
    "C63_round_trip",
    "C63_truncated",
    "C63_truncation_refuted",
    "C63_decode",
    "C63_encode",
    "C63_tie_refuted",
    "C63_in_phys_range",
    "C63_phys_range",
    "C63_double_signals",
    "C63_float_members"
   ],
   "note": "C arithmetic is IEEE double arithmetic (use_float=False). C63_truncation_refuted and C63_tie_refuted show the two deviations."
  },
  {
   "property": "C64",
   "status": "proved",
   "theorems": [
    "C64_init",
    "C64_init_offset_free",
    "C64_init_refuted"
   ],
   "note": "C64_init_refuted is the deviation: the generator tests the truth of the physical initial value."
  },
  {
   "property": "C65",
   "status": "proved",
   "theorems": [
    "C65_message",
    "C65_container",
    "C65_database",
    "C65_float_table_refuted",
    "C65_container_refuted"
   ],
   "note": "C65_float_table_refuted and C65_container_refuted show that the two conditions are needed."
  },
  {
   "property": "C66",
   "status": "proved",
   "theorems": [
    "C66_lines",
    "C66_one_per_line",
    "C66_candump",
    "C66_extended_refuted",
    "C66_crash_refuted"
   ],
   "note": "The text of a float, the units and the text of a DecodeError are parameters. C66_extended_refuted and C66_crash_refuted are the two deviations."
  },
  {
   "property": "C67",
   "status": "proved",
   "theorems": [
    "C67_events",
    "C67_screen",
    "C67_filter",
    "C67_good",
    "C67_container_refuted",
    "C67_empty_refuted",
    "C67_error_refuted",
    "C67_reset_refuted"
   ],
   "note": "The meaning of a regular expression, the texts of floats and time stamps, units, initial values and the text of a DecodeError are parameters. C67_good: frames of ordinary databases without undecodable contained messages meet the hypothesis. C67_container_refuted, C67_empty_refuted, C67_error_refuted and C67_reset_refuted are the deviations. Curses, python-can and threads are not modelled: frames and ticks are events of one sequence."
  },
  {
   "property": "C68",
   "status": "proved",
   "theorems": [
    "C68_accepts",
    "C68_load",
    "C68_errors",
    "C68_layout",
    "C68_round_trip",
    "C68_lookup",
    "C68_unaligned_refuted",
    "C68_order_refuted",
    "C68_reference_refuted"
   ],
   "note": "int() and float() are parameters; the XML reader has the limits given in Xml.v (no comments, declarations, document types), but all theorems except C68_lookup are about element trees. C68_unaligned_refuted, C68_order_refuted and C68_reference_refuted are the deviations. Names of data types, encodings and log messages are not modelled."
  },
  {
   "property": "C69",
   "status": "proved",
   "theorems": [
    "C69_accepts",
    "C69_refused",
    "C69_resolves",
    "C69_unresolved",
    "C69_locates",
    "C69_locate_fails",
    "C69_unique",
    "C69_mark_refuted"
   ],
   "note": "Elements are told apart by their position in the tree. Names of entries with * or & in the first two characters are left out of the theorems on locations, as the marks cannot be told from the name. C69_mark_refuted is the deviation. The rest of the system loader is modelled in ArxmlLoad."
  },
  {
   "property": "C70",
   "status": "proved",
   "theorems": [
    "C70_number",
    "C70_number_fails",
    "C70_integer",
    "C70_decimal",
    "C70_based",
    "C70_octal_refuted"
   ],
   "note": "float() and float.fromhex() are parameters. int() has no limit on the number of digits (Python refuses more than 4300 decimal digits). C70_octal_refuted is the deviation."
  },
  {
   "property": "C71",
   "status": "proved",
   "theorems": [
    "C71_signals",
    "C71_tail",
    "C71_name_refuted",
    "C71_selectors_refuted",
    "C71_authenticator_refuted"
   ],
   "note": "Stated for loads that succeed. Scaling, limits, choices and initial values of the signals are not part of the claim. Python raises RecursionError at some depth, which is a parameter. C71_name_refuted, C71_selectors_refuted and C71_authenticator_refuted are the deviations."
  },
  {
   "property": "C72",
   "status": "proved",
   "theorems": [
    "C72_messages",
    "C72_buses",
    "C72_nodes",
    "C72_strict_refuted",
    "C72_period_refuted",
    "C72_length_refuted"
   ],
   "note": "Stated for loads that succeed; in AUTOSAR 4 the bit rates of a cluster with several variants are those of one of them. C72_strict_refuted, C72_period_refuted and C72_length_refuted are the deviations."
  },
  {
   "property": "C73",
   "status": "proved",
   "theorems": [
    "C73_scaling",
    "C73_decoded",
    "C73_initial_tolerated",
    "C73_furnished",
    "C73_pdu",
    "C73_pieces_refuted",
    "C73_alone_refuted",
    "C73_selector"
   ],
   "note": "Stated for signals and PDUs that load. float() and float.fromhex() are parameters which may only give doubles (FT, FH); ex_doubles shows that the ones of the examples do. C73_pieces_refuted and C73_alone_refuted are the deviations."
  },
  {
   "property": "C74",
   "status": "proved",
   "theorems": [
    "C74_links",
    "C74_headers",
    "C74_names_refuted"
   ],
   "note": "Stated for files that load. Participants are compared as sets; PDUs are told apart by their paths, as the code does. C74_names_refuted is the deviation of names; the other one is shown by C74_hypotheses."
  },
  {
   "property": "C75",
   "status": "proved",
   "theorems": [
    "C75_safety",
    "C75_length_refuted",
    "C75_container_refuted"
   ],
   "note": "Stated for files that load; the specification has its own notion of elements in order. C75_length_refuted and C75_container_refuted are the deviations. Computing and applying CRCs and authenticators is not part of it (C30 to C32 are about that)."
  },
  {
   "property": "C76",
   "status": "proved",
   "theorems": [
    "C76_extract",
    "C76_chosen",
    "C76_autosar",
    "C76_sign_refuted",
    "C76_order_refuted"
   ],
   "note": "Stated for extracts that load; the specification locates elements by the indices of children and knows nothing of the search of the model. C76_sign_refuted and C76_order_refuted are the deviations."
  },
  {
   "property": "C77",
   "status": "proved",
   "theorems": [
    "C77_declared",
    "C77_defined",
    "C77_agree",
    "C77_structs",
    "C77_bit_fields",
    "C77_known",
    "C77_helpers",
    "C77_macros",
    "C77_fuzzer",
    "C77_init_refuted",
    "C77_struct_refuted",
    "C77_float_refuted",
    "C77_fuzzer_refuted",
    "C77_width_refuted"
   ],
   "note": "C77_helpers assumes that the names in the signal tree are those of signals, as a loaded message guarantees. C77_init_refuted, C77_struct_refuted, C77_float_refuted, C77_fuzzer_refuted and C77_width_refuted are the deviations."
  },
  {
   "property": "C78",
   "status": "proved",
   "theorems": [
    "C78_dbc",
    "C78_kcd",
    "C78_sym",
    "C78_dbc_limit_refuted",
    "C78_sym_names_refuted"
   ],
   "note": "Composes the round trips C56, C57 and C61 with the codec of C01-C20: `alike_coding` says that messages with the same signals in another order code alike. Decoding to names of values assumes that floating point signals have no value table. C78_dbc_limit_refuted and C78_sym_names_refuted are the deviations."
  },
  {
   "property": "C79",
   "status": "proved",
   "theorems": [
    "C79_readable",
    "C79_drawing",
    "C79_same_drawing",
    "C79_choices",
    "C79_broken_name_refuted"
   ],
   "note": "Without comments (with_comments=False), for signal names that are identifiers, so that textwrap sees one word. C79_same_drawing assumes that names and value names have no line ends. C79_broken_name_refuted is the deviation."
  },
  {
   "property": "C80",
   "status": "proved",
   "theorems": [
    "C80_names",
    "C80_answers",
    "C80_shown",
    "C80_buses",
    "C80_nodes",
    "C80_told_apart",
    "C80_whole_factors",
    "C80_same_names_refuted",
    "C80_excluded_refuted",
    "C80_comment_refuted",
    "C80_factor_refuted"
   ],
   "note": "Reading is by blocks: lines below \"name:\" that are empty or begin with a blank. Names must not be empty, begin with a blank or contain line ends. C80_same_names_refuted, C80_excluded_refuted, C80_comment_refuted and C80_factor_refuted are the deviations."
  },
  {
   "property": "C81",
   "status": "proved",
   "theorems": [
    "C81_blocks",
    "C81_option",
    "C81_again",
    "C81_identifier_read",
    "C81_same",
    "C81_succeeds",
    "C81_dids",
    "C81_unchanged_refuted",
    "C81_dash_refuted",
    "C81_narrow_refuted"
   ],
   "note": "Without --with-comments; texts are ASCII. C81_unchanged_refuted, C81_dash_refuted and C81_narrow_refuted are the deviations."
  },
  {
   "property": "C82",
   "status": "proved",
   "theorems": [
    "C82_selected",
    "C82_places",
    "C82_collected",
    "C82_graphs",
    "C82_marks",
    "C82_drawn",
    "C82_format",
    "C82_warned",
    "C82_replot_refuted",
    "C82_collect_refuted"
   ],
   "note": "Texts are ASCII; calls of matplotlib are elements of a list; subplot options, labels, colours and units are not modelled. C82_replot_refuted and C82_collect_refuted are the deviations."
  },
  {
   "property": "C83",
   "status": "proved",
   "theorems": [
    "C83_candump",
    "C83_log",
    "C83_read",
    "C83_settings",
    "C83_verdict",
    "C83_numbers",
    "C83_line_numbers_refuted",
    "C83_odd_refuted"
   ],
   "note": "Texts are ASCII; strptime, float, fromtimestamp and the conversions of --start and --stop are arbitrary functions. C83_line_numbers_refuted and C83_odd_refuted are the deviations."
  },
  {
   "property": "C84",
   "status": "proved",
   "theorems": [
    "C84_understood",
    "C84_refused",
    "C84_unambiguous",
    "C84_ambiguous",
    "C84_timedelta",
    "C84_days_refuted"
   ],
   "note": "Texts are ASCII; float() of plain numbers is an arbitrary function and seconds are exact rational numbers, the rounding of float is not modelled. C84_days_refuted is the deviation."
  },
  {
   "property": "C85",
   "status": "proved",
   "theorems": [
    "C85_reported",
    "C85_found",
    "C85_similar",
    "C85_ends",
    "C85_reflexive",
    "C85_nan_refuted",
    "C85_symmetric_refuted",
    "C85_reuse_refuted"
   ],
   "note": "Objects are the entries of a heap with an injective id(), and an attribute is the same object whenever it is asked for (C85_reuse_refuted shows what can happen without that). Properties that raise, the texts of the reported values and the order of the differences of a dictionary are not modelled. Recursion depth is not limited. C85_nan_refuted, C85_symmetric_refuted and C85_reuse_refuted are deviations."
  },
  {
   "property": "C86",
   "status": "proved",
   "theorems": [
    "C86_round_trip",
    "C86_truncated",
    "C86_decode",
    "C86_exact",
    "C86_in_phys_range",
    "C86_limit_refuted",
    "C86_large_refuted"
   ],
   "note": "C float is binary32 with one rounding per operation. Which float the compiler reads for the text of a Python float is an argument (rounding the double is an instance). Float signals with use_float are not covered. C86_large_refuted and C86_limit_refuted are the deviations."
  }
 ]
}