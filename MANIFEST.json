{
 "claims": [
  {
   "property": "C01",
   "status": "proved",
   "theorems": [
    "C01_right_truncation_windows"
   ],
   "note": ""
  },
  {
   "property": "C02",
   "status": "proved",
   "theorems": [
    "C02_left_truncation_windows",
    "C02_left_overlap_refuted"
   ],
   "note": "The statement is the exact behaviour of the code and is proved in full. The intended overlap of exactly stride tokens fails (C02_left_overlap_refuted): the code steps by offset-1."
  },
  {
   "property": "C03",
   "status": "proved",
   "theorems": [
    "C03_truncation_terminates",
    "C03_truncation_terminates_refuted"
   ],
   "note": "The statement is the exact behaviour of the code and is proved in full. The intended unconditional termination fails (C03_truncation_terminates_refuted): max_length 1, stride 0, Left never returns."
  },
  {
   "property": "C04",
   "status": "proved",
   "theorems": [
    "C04_truncation_bound",
    "C04_truncation_bound_refuted"
   ],
   "note": "The statement is the exact behaviour of the code and is proved in full. The intended bound for every configuration fails for max_length = 0 and for strategy OnlySecond (C04_truncation_bound_refuted)."
  },
  {
   "property": "C05",
   "status": "proved",
   "theorems": [
    "C05_unknown_direction",
    "C05_unknown_direction_refuted"
   ],
   "note": "The statement is the exact behaviour of the code and is proved in full. The intended claim that it is always well defined fails (C05_unknown_direction_refuted)."
  },
  {
   "property": "C06",
   "status": "proved",
   "theorems": [
    "C06_padding_shape",
    "C06_target_unique",
    "C06_padded_length"
   ],
   "note": ""
  },
  {
   "property": "C07",
   "status": "proved",
   "theorems": [
    "C07_padding_idempotent",
    "C07_padding_noop"
   ],
   "note": ""
  },
  {
   "property": "C08",
   "status": "proved",
   "theorems": [
    "C08_negative_target_rejected"
   ],
   "note": ""
  },
  {
   "property": "C09",
   "status": "proved",
   "theorems": [
    "C09_pad_encoding",
    "C09_pad_words_refuted",
    "C09_pad_words"
   ],
   "note": "The statement is the exact behaviour of the code and is proved in full. The intended word index null fails (C09_pad_words_refuted)."
  },
  {
   "property": "C10",
   "status": "proved",
   "theorems": [
    "C10_parallel_columns",
    "C10_unequal_special_refuted"
   ],
   "note": "The statement is the exact behaviour of the code and is proved in full. The proviso is needed: C10_unequal_special_refuted."
  },
  {
   "property": "C11",
   "status": "proved",
   "theorems": [
    "C11_specials_on_top_refuted",
    "C11_max_length_refuted",
    "C11_max_length_bound",
    "C11_length",
    "C11_max_length_iff"
   ],
   "note": "The statement is the exact behaviour of the code and is proved in full. The intended bound max_length, special tokens included, fails (C11_specials_on_top_refuted, C11_max_length_refuted)."
  },
  {
   "property": "C12",
   "status": "proved",
   "theorems": [
    "C12_masks",
    "C12_masks_decide"
   ],
   "note": ""
  },
  {
   "property": "C13",
   "status": "proved",
   "theorems": [
    "C13_template_exact"
   ],
   "note": ""
  },
  {
   "property": "C14",
   "status": "proved",
   "theorems": [
    "C14_no_special_tokens"
   ],
   "note": ""
  },
  {
   "property": "C15",
   "status": "proved",
   "theorems": [
    "C15_encode_template_refuted",
    "C15_encode_kept",
    "C15_windows",
    "C15_template_drops_overflow",
    "C15_overflow_kept"
   ],
   "note": "The statement is the exact behaviour of the code and is proved in full. The intended claim that they always survive fails with a template (C15_encode_template_refuted)."
  },
  {
   "property": "C16",
   "status": "proved",
   "theorems": [
    "C16_byte_level_only_offsets",
    "C16_byte_level_trim_exact",
    "C16_trimmed_everywhere"
   ],
   "note": ""
  },
  {
   "property": "C17",
   "status": "proved",
   "theorems": [
    "C17_sequence_composition"
   ],
   "note": ""
  },
  {
   "property": "C18",
   "status": "proved",
   "theorems": [
    "C18_wordpiece_decoding",
    "C18_rule_is_functional"
   ],
   "note": ""
  },
  {
   "property": "C19",
   "status": "proved",
   "theorems": [
    "C19_replace_leftmost",
    "C19_cleanup",
    "C19_cleanup_decoding_total"
   ],
   "note": ""
  },
  {
   "property": "C20",
   "status": "proved",
   "theorems": [
    "C20_decoders_discard",
    "C20_no_text_iff"
   ],
   "note": "The statement is the exact behaviour of the code and is proved in full. The intended claim fails for each of the four decoders (C20_decoders_discard)."
  },
  {
   "property": "C21",
   "status": "proved",
   "theorems": [
    "C21_denotes_unique",
    "C21_decode",
    "C21_unknown_id",
    "C21_all_or_nothing"
   ],
   "note": ""
  },
  {
   "property": "C22",
   "status": "proved",
   "theorems": [
    "C22_byte_level_inverse_iff",
    "C22_byte_level_inverse_bytewise",
    "C22_byte_level_inverse_boundary"
   ],
   "note": "The statement is the exact behaviour of the code and is proved in full. The intended claim for every byte fails (C22_byte_level_inverse_boundary: the bytes of U+4E00)."
  },
  {
   "property": "C23",
   "status": "proved",
   "theorems": [
    "C23_byte_alphabet",
    "C23_byte_alphabet_injective",
    "C23_byte_alphabet_keys"
   ],
   "note": ""
  },
  {
   "property": "C24",
   "status": "proved",
   "theorems": [
    "C24_tokenize_total",
    "C24_greedy"
   ],
   "note": ""
  },
  {
   "property": "C25",
   "status": "proved",
   "theorems": [
    "C25_tiling",
    "C25_tiling_ascii"
   ],
   "note": ""
  },
  {
   "property": "C26",
   "status": "proved",
   "theorems": [
    "C26_unknown"
   ],
   "note": ""
  },
  {
   "property": "C27",
   "status": "proved",
   "theorems": [
    "C27_merging_total",
    "C27_word_defined"
   ],
   "note": ""
  },
  {
   "property": "C28",
   "status": "proved",
   "theorems": [
    "C28_fully_merged",
    "C28_merge_table"
   ],
   "note": ""
  },
  {
   "property": "C29",
   "status": "proved",
   "theorems": [
    "C29_highest_rank_first",
    "C29_no_competition",
    "C29_priority_refuted"
   ],
   "note": "The statement is the exact behaviour of the code and is proved in full. The intended reference order fails (C29_priority_refuted): the queue is a max-heap on the rank."
  },
  {
   "property": "C30",
   "status": "proved",
   "theorems": [
    "C30_lossless"
   ],
   "note": ""
  },
  {
   "property": "C31",
   "status": "proved",
   "theorems": [
    "C31_accounts_for_all_bytes",
    "C31_unknown_bytes_dropped",
    "C31_never_drops_refuted",
    "C31_kept_bytes",
    "C31_accounting",
    "C31_nothing_lost_iff"
   ],
   "note": "The statement is the exact behaviour of the code and is proved in full. The intended claim that no byte is ever dropped fails (C31_never_drops_refuted)."
  },
  {
   "property": "C32",
   "status": "proved",
   "theorems": [
    "C32_initial_symbols",
    "C32_unknown_tokens"
   ],
   "note": ""
  },
  {
   "property": "C33",
   "status": "proved",
   "theorems": [
    "C33_fallback_exact",
    "C33_fallback_refuted",
    "C33_initial_symbols",
    "C33_hex_tokens_unused"
   ],
   "note": "The statement is the exact behaviour of the code and is proved in full. The intended use of the <0xNN> tokens fails (C33_fallback_refuted)."
  },
  {
   "property": "C34",
   "status": "proved",
   "theorems": [
    "C34_cache_transparent"
   ],
   "note": ""
  },
  {
   "property": "C35",
   "status": "proved",
   "theorems": [
    "C35_ids_resolve"
   ],
   "note": ""
  },
  {
   "property": "C36",
   "status": "proved",
   "theorems": [
    "C36_full_dropout",
    "C36_dropout_bypasses_cache",
    "C36_deterministic"
   ],
   "note": ""
  },
  {
   "property": "C37",
   "status": "proved",
   "theorems": [
    "C37_ignore_merges",
    "C37_span_refuted"
   ],
   "note": "The statement is the exact behaviour of the code and is proved in full. The intended span (0, length) fails for every non-empty word (C37_span_refuted)."
  },
  {
   "property": "C38",
   "status": "proved",
   "theorems": [
    "C38_ids",
    "C38_stable",
    "C38_empty_model_refuted",
    "C38_lifetime",
    "C38_lifetime_ids"
   ],
   "note": "The statement is the exact behaviour of the code and is proved in full. size > 0 is needed: C38_empty_model_refuted."
  },
  {
   "property": "C39",
   "status": "proved",
   "theorems": [
    "C39_added_ids_decode",
    "C39_added_ids_decode_text"
   ],
   "note": ""
  },
  {
   "property": "C40",
   "status": "proved",
   "theorems": [
    "C40_count",
    "C40_special"
   ],
   "note": ""
  },
  {
   "property": "C41",
   "status": "proved",
   "theorems": [
    "C41_matches_partition",
    "C41_pieces"
   ],
   "note": ""
  },
  {
   "property": "C42",
   "status": "proved",
   "theorems": [
    "C42_recognised",
    "C42_matches_exactly",
    "C42_found_once",
    "C42_inside_word_refuted",
    "C42_longest_refuted"
   ],
   "note": "The statement is the exact behaviour of the code and is proved in full. The intended claim (every occurrence, longest first) fails: C42_inside_word_refuted, C42_longest_refuted."
  },
  {
   "property": "C43",
   "status": "proved",
   "theorems": [
    "C43_new_tokens_ignored_refuted",
    "C43_known_token"
   ],
   "note": "The statement is the exact behaviour of the code and is proved in full. The intended claim that new tokens are recognised fails (C43_new_tokens_ignored_refuted)."
  },
  {
   "property": "C44",
   "status": "proved",
   "theorems": [
    "C44_model_retokenizes",
    "C44_wordpiece_word",
    "C44_wordpiece_long_refuted",
    "C44_wordpiece_exactly",
    "C44_bpe_ignore_merges",
    "C44_bpe_refuted"
   ],
   "note": "The statement is the exact behaviour of the code and is proved in full. The intended claim (always its own id) fails: C44_wordpiece_long_refuted, C44_bpe_refuted."
  },
  {
   "property": "C45",
   "status": "proved",
   "theorems": [
    "C45_construction",
    "C45_ordinary_token_refuted",
    "C45_no_model_refuted"
   ],
   "note": "The statement is the exact behaviour of the code and is proved in full. The intended claim that it is always well defined fails: C45_ordinary_token_refuted, C45_no_model_refuted."
  },
  {
   "property": "C46",
   "status": "proved",
   "theorems": [
    "C46_strip_ascii",
    "C46_flags_exactly",
    "C46_accepted_once",
    "C46_strip_refuted",
    "C46_white_refuted"
   ],
   "note": "The statement is the exact behaviour of the code and is proved in full. The intended claim for any text fails (C46_strip_refuted): UTF-16 positions are used as byte positions; with tokens made of white space it fails even for ASCII (C46_white_refuted): part of the text is taken twice."
  },
  {
   "property": "C47",
   "status": "proved",
   "theorems": [
    "C47_fresh_alignment",
    "C47_fresh_table_exact"
   ],
   "note": ""
  },
  {
   "property": "C48",
   "status": "proved",
   "theorems": [
    "C48_chinese_text",
    "C48_chinese_origins",
    "C48_chinese_aligned",
    "C48_chinese_refuted",
    "C48_alignment_refuted"
   ],
   "note": "The statement is the exact behaviour of the code and is proved in full. The intended claim for the whole block Extension E fails (C48_chinese_refuted), and alignment fails beyond the basic plane (C48_alignment_refuted)."
  },
  {
   "property": "C49",
   "status": "proved",
   "theorems": [
    "C49_clean_text_exact",
    "C49_clean_text_aligned",
    "C49_defined_iff_ascii",
    "C49_defined_iff",
    "C49_clean_text_refuted",
    "C49_alignment_refuted"
   ],
   "note": "The statement is the exact behaviour of the code and is proved in full. The intended unconditional safety and alignment fail: C49_clean_text_refuted, C49_alignment_refuted."
  },
  {
   "property": "C50",
   "status": "proved",
   "theorems": [
    "C50_normalization_forms",
    "C50_normalization_forms_fresh"
   ],
   "note": ""
  },
  {
   "property": "C51",
   "status": "proved",
   "theorems": [
    "C51_strip_accents_safe_iff",
    "C51_strip_accents_exactly",
    "C51_strip_accents",
    "C51_strip_accents_refuted"
   ],
   "note": "The statement is the exact behaviour of the code and is proved in full. The intended unconditional safety fails (C51_strip_accents_refuted, U+1EA5)."
  },
  {
   "property": "C52",
   "status": "proved",
   "theorems": [
    "C52_strip_low_byte",
    "C52_strip_exact",
    "C52_strip_refuted"
   ],
   "note": "The statement is the exact behaviour of the code and is proved in full. The intended claim for all white space fails (C52_strip_refuted): U+0120 is removed, U+00A0 is not."
  },
  {
   "property": "C53",
   "status": "proved",
   "theorems": [
    "C53_strip_accents_exact",
    "C53_strip_accents_idempotent"
   ],
   "note": ""
  },
  {
   "property": "C54",
   "status": "proved",
   "theorems": [
    "C54_prepend",
    "C54_prepend_aligned",
    "C54_prepend_refuted",
    "C54_alignment_refuted"
   ],
   "note": "The statement is the exact behaviour of the code and is proved in full. The intended claim for the empty text fails (C54_prepend_refuted), and alignment fails for longer prefixes (C54_alignment_refuted)."
  },
  {
   "property": "C55",
   "status": "proved",
   "theorems": [
    "C55_replace_defined_iff",
    "C55_replace_one",
    "C55_replace_refuted",
    "C55_replace_length_refuted",
    "C55_no_match",
    "C55_one_match",
    "C55_other_length"
   ],
   "note": "The statement is the exact behaviour of the code and is proved in full. The intended claim (every match, always memory safe) fails: C55_replace_refuted, C55_replace_length_refuted."
  },
  {
   "property": "C56",
   "status": "proved",
   "theorems": [
    "C56_sequence_normalizer",
    "C56_sequence_pre_tokenizer",
    "C56_sequence_decoder"
   ],
   "note": ""
  },
  {
   "property": "C57",
   "status": "proved",
   "theorems": [
    "C57_split_pieces",
    "C57_isolated_lossless",
    "C57_fixed_patterns"
   ],
   "note": ""
  },
  {
   "property": "C58",
   "status": "proved",
   "theorems": [
    "C58_bert_pre_tokenize",
    "C58_bert_text"
   ],
   "note": ""
  },
  {
   "property": "C59",
   "status": "proved",
   "theorems": [
    "C59_recognised_kept",
    "C59_byte_level_remaps",
    "C59_recognised_stay",
    "C59_byte_level_refuted"
   ],
   "note": "The statement is the exact behaviour of the code and is proved in full. The intended claim that ByteLevel leaves the text alone fails (C59_byte_level_refuted); add_prefix_space is C63."
  },
  {
   "property": "C60",
   "status": "proved",
   "theorems": [
    "C60_byte_level",
    "C60_byte_level_refuted"
   ],
   "note": "The statement is the exact behaviour of the code and is proved in full. The intended claim for every platform fails (C60_byte_level_refuted)."
  },
  {
   "property": "C61",
   "status": "proved",
   "theorems": [
    "C61_apostrophes_only",
    "C61_pieces_once",
    "C61_no_apostrophe_no_split",
    "C61_gpt2_pattern_refuted"
   ],
   "note": "The statement is the exact behaviour of the code and is proved in full. The intended GPT-2 pattern is not what is compiled (C61_gpt2_pattern_refuted)."
  },
  {
   "property": "C62",
   "status": "proved",
   "theorems": [
    "C62_behavior_names",
    "C62_options_ignored_refuted",
    "C62_invert_ignored_refuted",
    "C62_delimiter_lost_refuted"
   ],
   "note": "The statement is the exact behaviour of the code and is proved in full. The intended meaning of the other options fails: C62_options_ignored_refuted, C62_invert_ignored_refuted, C62_delimiter_lost_refuted."
  },
  {
   "property": "C63",
   "status": "proved",
   "theorems": [
    "C63_add_prefix_space",
    "C63_pieces_forgotten_refuted",
    "C63_empty_refuted"
   ],
   "note": "The statement is the exact behaviour of the code and is proved in full. The intended claim that they are kept fails: C63_pieces_forgotten_refuted, C63_empty_refuted."
  },
  {
   "property": "C64",
   "status": "proved",
   "theorems": [
    "C64_empty_text",
    "C64_encodable_iff",
    "C64_encode",
    "C64_empty_text_refuted",
    "C64_empty_text_no_normalizer_refuted",
    "C64_empty_text_plain_refuted",
    "C64_empty_text_bert"
   ],
   "note": "The statement is the exact behaviour of the code and is proved in full. The intended claim that it is always well defined fails: C64_empty_text_refuted and its corollaries."
  },
  {
   "property": "C65",
   "status": "proved",
   "theorems": [
    "C65_offsets",
    "C65_defined"
   ],
   "note": ""
  },
  {
   "property": "C66",
   "status": "proved",
   "theorems": [
    "C66_word_indices",
    "C66_word_indices_sorted"
   ],
   "note": ""
  },
  {
   "property": "C67",
   "status": "proved",
   "theorems": [
    "C67_history_independent",
    "C67_encode_repeatable"
   ],
   "note": ""
  },
  {
   "property": "C68",
   "status": "proved",
   "theorems": [
    "C68_invalid_rejected",
    "C68_valid_accepted",
    "C68_android_refuted",
    "C68_android_bmp"
   ],
   "note": "The statement is the exact behaviour of the code and is proved in full. The intended claim that the Android binding accepts every Java string fails (C68_android_refuted)."
  },
  {
   "property": "C69",
   "status": "proved",
   "theorems": [
    "C69_bert_ascii",
    "C69_bert_ascii_text"
   ],
   "note": ""
  },
  {
   "property": "C70",
   "status": "proved",
   "theorems": [
    "C70_no_added_vocabulary_refuted",
    "C70_erased_text_refuted",
    "C70_prefix_space_refuted",
    "C70_applied"
   ],
   "note": "The statement is the exact behaviour of the code and is proved in full. The intended claim (always applied) fails: C70_no_added_vocabulary_refuted, C70_erased_text_refuted, C70_prefix_space_refuted."
  },
  {
   "property": "C71",
   "status": "proved",
   "theorems": [
    "C71_program_is_encode",
    "C71_sequential_results",
    "C71_no_waiting",
    "C71_race_refuted",
    "C71_read_only",
    "C71_no_cache_safe",
    "C71_empty_token_refuted"
   ],
   "note": "The statement is the exact behaviour of the code and is proved in full. The intended claim for every tokenizer fails: C71_race_refuted, C71_empty_token_refuted."
  },
  {
   "property": "C72",
   "status": "proved",
   "theorems": [
    "C72_round_trip",
    "C72_punctuation_refuted",
    "C72_split_character_refuted",
    "C72_prefix_word_refuted"
   ],
   "note": "The statement is the exact behaviour of the code and is proved in full. Each proviso is needed: C72_punctuation_refuted, C72_split_character_refuted, C72_prefix_word_refuted."
  },
  {
   "property": "C73",
   "status": "proved",
   "theorems": [
    "C73_no_source",
    "C73_unreadable",
    "C73_malformed_rejected",
    "C73_missing_key",
    "C73_malformed_component",
    "C73_only_these"
   ],
   "note": ""
  },
  {
   "property": "C74",
   "status": "proved",
   "theorems": [
    "C74_vocabulary_exactly",
    "C74_unescaped",
    "C74_escaped_keys_refuted",
    "C74_double_quote_refuted"
   ],
   "note": "The statement is the exact behaviour of the code and is proved in full. The intended claim (the JSON string value of every key) fails: C74_escaped_keys_refuted, C74_double_quote_refuted."
  },
  {
   "property": "C75",
   "status": "proved",
   "theorems": [
    "C75_dropped_silently_refuted",
    "C75_decoder_refuted",
    "C75_supported"
   ],
   "note": "The statement is the exact behaviour of the code and is proved in full. The intended rejection fails: C75_dropped_silently_refuted, C75_decoder_refuted."
  },
  {
   "property": "C76",
   "status": "proved",
   "theorems": [
    "C76_utf8_round_trip",
    "C76_utf8_rejects_everything_else",
    "C76_invalid_wide_string_rejected"
   ],
   "note": ""
  },
  {
   "property": "C77",
   "status": "proved",
   "theorems": [
    "C77_bmp",
    "C77_supplementary_refuted",
    "C77_nul_refuted",
    "C77_exactly",
    "C77_arrives_iff"
   ],
   "note": "The statement is the exact behaviour of the code and is proved in full. The intended claim for every text fails: C77_nul_refuted, C77_supplementary_refuted."
  },
  {
   "property": "C78",
   "status": "proved",
   "theorems": [
    "C78_bmp",
    "C78_supplementary_refuted",
    "C78_nul_refuted",
    "C78_exactly",
    "C78_passes_iff"
   ],
   "note": "The statement is the exact behaviour of the code and is proved in full. The intended claim for every string fails: C78_nul_refuted, C78_supplementary_refuted."
  },
  {
   "property": "C79",
   "status": "proved",
   "theorems": [
    "C79_round_trip",
    "C79_construct"
   ],
   "note": ""
  },
  {
   "property": "C80",
   "status": "proved",
   "theorems": [
    "C80_missing_skipped",
    "C80_nothing",
    "C80_decode_complete",
    "C80_decode_refuted",
    "C80_add_tokens_refuted"
   ],
   "note": "The statement is the exact behaviour of the code and is proved in full. The intended claim that a missing component is skipped in decode and add_tokens fails: C80_decode_refuted, C80_add_tokens_refuted."
  },
  {
   "property": "C81",
   "status": "proved",
   "theorems": [
    "C81_reference",
    "C81_reference_unique",
    "C81_reference_ids"
   ],
   "note": ""
  },
  {
   "property": "C82",
   "status": "proved",
   "theorems": [
    "C82_offsets_partition"
   ],
   "note": ""
  },
  {
   "property": "C83",
   "status": "proved",
   "theorems": [
    "C83_white_space"
   ],
   "note": ""
  },
  {
   "property": "C84",
   "status": "proved",
   "theorems": [
    "C84_concatenation"
   ],
   "note": ""
  },
  {
   "property": "C85",
   "status": "proved",
   "theorems": [
    "C85_case_insensitive"
   ],
   "note": ""
  },
  {
   "property": "C86",
   "status": "proved",
   "theorems": [
    "C86_configuration_kept",
    "C86_decode_pure",
    "C86_assignments_kept"
   ],
   "note": ""
  },
  {
   "property": "C87",
   "status": "proved",
   "theorems": [
    "C87_right_lossless",
    "C87_left_lossless"
   ],
   "note": ""
  },
  {
   "property": "C88",
   "status": "proved",
   "theorems": [
    "C88_byte_level",
    "C88_wordpiece",
    "C88_prefix",
    "C88_sequence_boundary"
   ],
   "note": ""
  },
  {
   "property": "C89",
   "status": "proved",
   "theorems": [
    "C89_reference_added",
    "C89_words_once",
    "C89_token_whole"
   ],
   "note": ""
  },
  {
   "property": "C90",
   "status": "proved",
   "theorems": [
    "C90_kept",
    "C90_round_trip_iff",
    "C90_undefined"
   ],
   "note": ""
  },
  {
   "property": "C91",
   "status": "proved",
   "theorems": [
    "C91_only_adds",
    "C91_same_outcome",
    "C91_false_adds_none",
    "C91_trim_boundary"
   ],
   "note": ""
  },
  {
   "property": "C92",
   "status": "proved",
   "theorems": [
    "C92_order",
    "C92_new_bpe",
    "C92_construct",
    "C92_added_order",
    "C92_duplicate_ids_boundary"
   ],
   "note": ""
  },
  {
   "property": "C93",
   "status": "proved",
   "theorems": [
    "C93_reference",
    "C93_undefined",
    "C93_words",
    "C93_unknown_token_total"
   ],
   "note": ""
  },
  {
   "property": "C94",
   "status": "proved",
   "theorems": [
    "C94_spans",
    "C94_ascii_exact"
   ],
   "note": ""
  },
  {
   "property": "C95",
   "status": "proved",
   "theorems": [
    "C95_words",
    "C95_reference",
    "C95_past_the_end",
    "C95_bpe",
    "C95_inside",
    "C95_total"
   ],
   "note": ""
  },
  {
   "property": "C96",
   "status": "proved",
   "theorems": [
    "C96_truncation",
    "C96_padding",
    "C96_padding_wraps",
    "C96_encode"
   ],
   "note": ""
  },
  {
   "property": "C97",
   "status": "proved",
   "theorems": [
    "C97_room",
    "C97_overflow"
   ],
   "note": ""
  },
  {
   "property": "C98",
   "status": "proved",
   "theorems": [
    "C98_encode",
    "C98_decode",
    "C98_add_tokens"
   ],
   "note": ""
  },
  {
   "property": "C99",
   "status": "proved",
   "theorems": [
    "C99_encode_exceptions",
    "C99_encode_undefined",
    "C99_decode",
    "C99_add_tokens"
   ],
   "note": ""
  },
  {
   "property": "C100",
   "status": "proved",
   "theorems": [
    "C100_finishing",
    "C100_total",
    "C100_total_bpe"
   ],
   "note": ""
  },
  {
   "property": "C101",
   "status": "proved",
   "theorems": [
    "C101_word",
    "C101_distinct_bytes",
    "C101_encode",
    "C101_queue_matters"
   ],
   "note": ""
  },
  {
   "property": "C102",
   "status": "proved",
   "theorems": [
    "C102_call",
    "C102_encode",
    "C102_grows"
   ],
   "note": ""
  },
  {
   "property": "C103",
   "status": "proved",
   "theorems": [
    "C103_accent_offsets",
    "C103_drift",
    "C103_accented_loses"
   ],
   "note": ""
  },
  {
   "property": "C104",
   "status": "proved",
   "theorems": [
    "C104_bert_offsets",
    "C104_cased",
    "C104_uncased",
    "C104_total",
    "C104_bpe_offsets"
   ],
   "note": ""
  },
  {
   "property": "C105",
   "status": "proved",
   "theorems": [
    "C105_nothing_left",
    "C105_only_accents",
    "C105_one_deleted"
   ],
   "note": ""
  },
  {
   "property": "C106",
   "status": "proved",
   "theorems": [
    "C106_llama",
    "C106_offsets",
    "C106_room",
    "C106_no_space",
    "C106_decode"
   ],
   "note": ""
  },
  {
   "property": "C107",
   "status": "proved",
   "theorems": [
    "C107_tokens",
    "C107_encode",
    "C107_everything"
   ],
   "note": ""
  },
  {
   "property": "C108",
   "status": "proved",
   "theorems": [
    "C108_entries",
    "C108_decode_iff",
    "C108_decodes"
   ],
   "note": ""
  },
  {
   "property": "C109",
   "status": "proved",
   "theorems": [
    "C109_rows",
    "C109_unique",
    "C109_bert",
    "C109_bpe",
    "C109_cls_sep"
   ],
   "note": ""
  },
  {
   "property": "C110",
   "status": "proved",
   "theorems": [
    "C110_deleted",
    "C110_same",
    "C110_shift",
    "C110_true_position",
    "C110_undefined"
   ],
   "note": "The statement is the exact behaviour of the code and is proved in full. The intended claim fails: C110_case, C110_true_position."
  },
  {
   "property": "C111",
   "status": "proved",
   "theorems": [
    "C111_same",
    "C111_in_place",
    "C111_settled",
    "C111_strip",
    "C111_shift",
    "C111_accents"
   ],
   "note": ""
  },
  {
   "property": "C112",
   "status": "proved",
   "theorems": [
    "C112_bert",
    "C112_decodes"
   ],
   "note": ""
  },
  {
   "property": "C113",
   "status": "proved",
   "theorems": [
    "C113_null_is_default",
    "C113_construct",
    "C113_strip_accents",
    "C113_strip_accents_refuted"
   ],
   "note": "The statement describes the code as it is; C113_strip_accents_refuted refutes the intended reading of strip_accents = false with lowercase."
  },
  {
   "property": "C114",
   "status": "proved",
   "theorems": [
    "C114_string",
    "C114_respelled",
    "C114_construct"
   ],
   "note": ""
  },
  {
   "property": "C115",
   "status": "proved",
   "theorems": [
    "C115_output",
    "C115_failure",
    "C115_faithful",
    "C115_quotes",
    "C115_identical",
    "C115_identical_refuted"
   ],
   "note": "The statement describes the code as it is; C115_identical_refuted refutes the intended reading of the comparison."
  },
  {
   "property": "C116",
   "status": "proved",
   "theorems": [
    "C116_table",
    "C116_parts",
    "C116_outcome",
    "C116_same",
    "C116_case",
    "C116_short_case",
    "C116_same_case"
   ],
   "note": ""
  },
  {
   "property": "C117",
   "status": "proved",
   "theorems": [
    "C117_one_token",
    "C117_tokens",
    "C117_same",
    "C117_construct",
    "C117_case"
   ],
   "note": ""
  },
  {
   "property": "C118",
   "status": "proved",
   "theorems": [
    "C118_repair_utf8",
    "C118_repair_utf16",
    "C118_utf8",
    "C118_unique",
    "C118_utf16",
    "C118_exists"
   ],
   "note": ""
  },
  {
   "property": "C119",
   "status": "proved",
   "theorems": [
    "C119_word",
    "C119_encode",
    "C119_not_made"
   ],
   "note": ""
  },
  {
   "property": "C120",
   "status": "proved",
   "theorems": [
    "C120_output",
    "C120_once",
    "C120_position"
   ],
   "note": ""
  },
  {
   "property": "C121",
   "status": "proved",
   "theorems": [
    "C121_bpe",
    "C121_wordpiece",
    "C121_config"
   ],
   "note": ""
  },
  {
   "property": "C122",
   "status": "proved",
   "theorems": [
    "C122_wordpiece",
    "C122_bpe",
    "C122_forgotten",
    "C122_white_space",
    "C122_alone"
   ],
   "note": ""
  },
  {
   "property": "C123",
   "status": "proved",
   "theorems": [
    "C123_irrelevant_tokens",
    "C123_lifetime",
    "C123_no_added_tokens",
    "C123_replacement_refuted"
   ],
   "note": "Proved for tokens without U+FFFD; C123_replacement_refuted shows the exception."
  },
  {
   "property": "C124",
   "status": "proved",
   "theorems": [
    "C124_more_entries",
    "C124_irrelevant_entries",
    "C124_unknown_refuted"
   ],
   "note": "C124_unknown_refuted shows that without the hypotheses (absent entries / no unknown token) more entries can change and even lose an encoding; the statement says so."
  },
  {
   "property": "C125",
   "status": "proved",
   "theorems": [
    "C125_decoded",
    "C125_specials_vanish",
    "C125_template",
    "C125_stable",
    "C125_unknown_refuted"
   ],
   "note": "C125_unknown_refuted shows that part (d) needs its hypothesis (no unknown word); the statement says so."
  },
  {
   "property": "C126",
   "status": "proved",
   "theorems": [
    "C126_irrelevant",
    "C126_appended",
    "C126_gap_refuted"
   ],
   "note": "C126_gap_refuted shows why, without an unknown token, the hypothesis has to exclude scattered occurrences too; the statement says so."
  },
  {
   "property": "C127",
   "status": "proved",
   "theorems": [
    "C127_low_bytes",
    "C127_applies",
    "C127_ascii",
    "C127_added_text_refuted"
   ],
   "note": "C127_low_bytes and C127_ascii are the property; C127_added_text_refuted shows that the intended reading fails for non-ASCII added tokens."
  },
  {
   "property": "C128",
   "status": "proved",
   "theorems": [
    "C128_process",
    "C128_kept",
    "C128_independent"
   ],
   "note": ""
  },
  {
   "property": "C129",
   "status": "proved",
   "theorems": [
    "C129_config",
    "C129_screens",
    "C129_emoji_refuted",
    "C129_empty_refuted",
    "C129_bert"
   ],
   "note": "screens exactly characterised; refutations: an emoji or an empty input ends the process"
  },
  {
   "property": "C130",
   "status": "proved",
   "theorems": [
    "C130_wordpiece_word",
    "C130_bpe_word",
    "C130_wordpiece",
    "C130_bpe",
    "C130_bert",
    "C130_ids",
    "C130_config",
    "C130_activity"
   ],
   "note": ""
  },
  {
   "property": "C131",
   "status": "proved",
   "theorems": [
    "C131_same_tokens",
    "C131_lifetime",
    "C131_batch",
    "C131_again",
    "C131_batch_refuted"
   ],
   "note": "Proved for histories in which each text always has the same settings; the exception (a text normal first, special later, with different settings) is shown by C131_batch_refuted."
  },
  {
   "property": "C132",
   "status": "proved",
   "theorems": [
    "C132_wordpiece",
    "C132_bpe",
    "C132_safe",
    "C132_far",
    "C132_exact",
    "C132_decomposed",
    "C132_place_refuted"
   ],
   "note": "Exact characterisation proved; the natural reading 'the reported place holds the word' is refuted for NFC by C132_place_refuted."
  },
  {
   "property": "C133",
   "status": "proved",
   "theorems": [
    "C133_wordpiece",
    "C133_bpe",
    "C133_marks",
    "C133_cased",
    "C133_cased_exact",
    "C133_uncased_plain",
    "C133_unavailable",
    "C133_place_refuted"
   ],
   "note": "Exact characterisation proved; the natural reading 'the reported place holds the word' is refuted for uncased tokenizers by C133_place_refuted."
  },
  {
   "property": "C134",
   "status": "proved",
   "theorems": [
    "C134_wordpiece",
    "C134_bpe",
    "C134_undefined",
    "C134_cased"
   ],
   "note": ""
  },
  {
   "property": "C135",
   "status": "proved",
   "theorems": [
    "C135_wordpiece",
    "C135_bpe",
    "C135_breaks",
    "C135_unavailable",
    "C135_all_cases"
   ],
   "note": ""
  },
  {
   "property": "C136",
   "status": "proved",
   "theorems": [
    "C136_wordpiece",
    "C136_bpe",
    "C136_exclusive"
   ],
   "note": ""
  },
  {
   "property": "C137",
   "status": "proved",
   "theorems": [
    "C137_determined",
    "C137_wordpiece",
    "C137_bpe"
   ],
   "note": ""
  },
  {
   "property": "C138",
   "status": "proved",
   "theorems": [
    "C138_counted",
    "C138_wordpiece_word",
    "C138_wordpiece",
    "C138_wordpiece_worst",
    "C138_bpe_word",
    "C138_bpe_copies",
    "C138_search"
   ],
   "note": ""
  },
  {
   "property": "C139",
   "status": "proved",
   "theorems": [
    "C139_determined",
    "C139_wordpiece",
    "C139_bpe",
    "C139_inside",
    "C139_stands_there"
   ],
   "note": ""
  },
  {
   "property": "C140",
   "status": "proved",
   "theorems": [
    "C140_words",
    "C140_wordpiece_tokens",
    "C140_bpe_tokens",
    "C140_wordpiece",
    "C140_bpe"
   ],
   "note": ""
  },
  {
   "property": "C141",
   "status": "proved",
   "theorems": [
    "C141_wordpiece",
    "C141_bpe",
    "C141_determined"
   ],
   "note": ""
  },
  {
   "property": "C142",
   "status": "proved",
   "theorems": [
    "C142_wordpiece",
    "C142_bpe",
    "C142_stretch",
    "C142_whole"
   ],
   "note": ""
  },
  {
   "property": "C143",
   "status": "proved",
   "theorems": [
    "C143_renumbered"
   ],
   "note": ""
  },
  {
   "property": "C144",
   "status": "proved",
   "theorems": [
    "C144_sequential_results",
    "C144_no_race",
    "C144_no_waiting",
    "C144_overlap_refuted"
   ],
   "note": "C144_overlap_refuted shows that the condition is needed: an encode call that overlaps an addition can answer neither as before nor as after it, even with atomic accesses."
  },
  {
   "property": "C145",
   "status": "proved",
   "theorems": [
    "C145_normalizers",
    "C145_bert",
    "C145_exact_on_emoji",
    "C145_prepend_refuted",
    "C145_case"
   ],
   "note": "The bound is needed: C145_prepend_refuted shows an overflow when it is exceeded."
  },
  {
   "property": "C146",
   "status": "proved",
   "theorems": [
    "C146_pieces",
    "C146_always",
    "C146_one_piece",
    "C146_bert",
    "C146_emoji_refuted",
    "C146_case"
   ],
   "note": "The bound is needed: C146_emoji_refuted shows an overflow when it is exceeded."
  },
  {
   "property": "C147",
   "status": "proved",
   "theorems": [
    "C147_encode",
    "C147_always",
    "C147_whole_encode",
    "C147_bert",
    "C147_emoji_refuted",
    "C147_case"
   ],
   "note": "The bound is needed: C147_emoji_refuted shows an overflow when it is exceeded."
  }
 ]
}