{
 "C02": {
  "status": "proved",
  "note": "The statement is the exact behaviour of the code and is proved in full. The intended overlap of exactly stride tokens fails (C02_left_overlap_refuted): the code steps by offset-1."
 },
 "C03": {
  "status": "proved",
  "note": "The statement is the exact behaviour of the code and is proved in full. The intended unconditional termination fails (C03_truncation_terminates_refuted): max_length 1, stride 0, Left never returns."
 },
 "C04": {
  "status": "proved",
  "note": "The statement is the exact behaviour of the code and is proved in full. The intended bound for every configuration fails for max_length = 0 and for strategy OnlySecond (C04_truncation_bound_refuted)."
 },
 "C05": {
  "status": "proved",
  "note": "The statement is the exact behaviour of the code and is proved in full. The intended claim that it is always well defined fails (C05_unknown_direction_refuted)."
 },
 "C09": {
  "status": "proved",
  "note": "The statement is the exact behaviour of the code and is proved in full. The intended word index null fails (C09_pad_words_refuted)."
 },
 "C10": {
  "status": "proved",
  "note": "The statement is the exact behaviour of the code and is proved in full. The proviso is needed: C10_unequal_special_refuted."
 },
 "C11": {
  "status": "proved",
  "note": "The statement is the exact behaviour of the code and is proved in full. The intended bound max_length, special tokens included, fails (C11_specials_on_top_refuted, C11_max_length_refuted)."
 },
 "C15": {
  "status": "proved",
  "note": "The statement is the exact behaviour of the code and is proved in full. The intended claim that they always survive fails with a template (C15_encode_template_refuted)."
 },
 "C29": {
  "status": "proved",
  "note": "The statement is the exact behaviour of the code and is proved in full. The intended reference order fails (C29_priority_refuted): the queue is a max-heap on the rank."
 },
 "C31": {
  "status": "proved",
  "note": "The statement is the exact behaviour of the code and is proved in full. The intended claim that no byte is ever dropped fails (C31_never_drops_refuted)."
 },
 "C33": {
  "status": "proved",
  "note": "The statement is the exact behaviour of the code and is proved in full. The intended use of the <0xNN> tokens fails (C33_fallback_refuted)."
 },
 "C37": {
  "status": "proved",
  "note": "The statement is the exact behaviour of the code and is proved in full. The intended span (0, length) fails for every non-empty word (C37_span_refuted)."
 },
 "C38": {
  "status": "proved",
  "note": "The statement is the exact behaviour of the code and is proved in full. size > 0 is needed: C38_empty_model_refuted."
 },
 "C42": {
  "status": "proved",
  "note": "The statement is the exact behaviour of the code and is proved in full. The intended claim (every occurrence, longest first) fails: C42_inside_word_refuted, C42_longest_refuted."
 },
 "C43": {
  "status": "proved",
  "note": "The statement is the exact behaviour of the code and is proved in full. The intended claim that new tokens are recognised fails (C43_new_tokens_ignored_refuted)."
 },
 "C44": {
  "status": "proved",
  "note": "The statement is the exact behaviour of the code and is proved in full. The intended claim (always its own id) fails: C44_wordpiece_long_refuted, C44_bpe_refuted."
 },
 "C45": {
  "status": "proved",
  "note": "The statement is the exact behaviour of the code and is proved in full. The intended claim that it is always well defined fails: C45_ordinary_token_refuted, C45_no_model_refuted."
 },
 "C46": {
  "status": "proved",
  "note": "The statement is the exact behaviour of the code and is proved in full. The intended claim for any text fails (C46_strip_refuted): UTF-16 positions are used as byte positions; with tokens made of white space it fails even for ASCII (C46_white_refuted): part of the text is taken twice."
 },
 "C48": {
  "status": "proved",
  "note": "The statement is the exact behaviour of the code and is proved in full. The intended claim for the whole block Extension E fails (C48_chinese_refuted), and alignment fails beyond the basic plane (C48_alignment_refuted)."
 },
 "C49": {
  "status": "proved",
  "note": "The statement is the exact behaviour of the code and is proved in full. The intended unconditional safety and alignment fail: C49_clean_text_refuted, C49_alignment_refuted."
 },
 "C51": {
  "status": "proved",
  "note": "The statement is the exact behaviour of the code and is proved in full. The intended unconditional safety fails (C51_strip_accents_refuted, U+1EA5)."
 },
 "C52": {
  "status": "proved",
  "note": "The statement is the exact behaviour of the code and is proved in full. The intended claim for all white space fails (C52_strip_refuted): U+0120 is removed, U+00A0 is not."
 },
 "C54": {
  "status": "proved",
  "note": "The statement is the exact behaviour of the code and is proved in full. The intended claim for the empty text fails (C54_prepend_refuted), and alignment fails for longer prefixes (C54_alignment_refuted)."
 },
 "C55": {
  "status": "proved",
  "note": "The statement is the exact behaviour of the code and is proved in full. The intended claim (every match, always memory safe) fails: C55_replace_refuted, C55_replace_length_refuted."
 },
 "C59": {
  "status": "proved",
  "note": "The statement is the exact behaviour of the code and is proved in full. The intended claim that ByteLevel leaves the text alone fails (C59_byte_level_refuted); add_prefix_space is C63."
 },
 "C60": {
  "status": "proved",
  "note": "The statement is the exact behaviour of the code and is proved in full. The intended claim for every platform fails (C60_byte_level_refuted)."
 },
 "C61": {
  "status": "proved",
  "note": "The statement is the exact behaviour of the code and is proved in full. The intended GPT-2 pattern is not what is compiled (C61_gpt2_pattern_refuted)."
 },
 "C62": {
  "status": "proved",
  "note": "The statement is the exact behaviour of the code and is proved in full. The intended meaning of the other options fails: C62_options_ignored_refuted, C62_invert_ignored_refuted, C62_delimiter_lost_refuted."
 },
 "C63": {
  "status": "proved",
  "note": "The statement is the exact behaviour of the code and is proved in full. The intended claim that they are kept fails: C63_pieces_forgotten_refuted, C63_empty_refuted."
 },
 "C64": {
  "status": "proved",
  "note": "The statement is the exact behaviour of the code and is proved in full. The intended claim that it is always well defined fails: C64_empty_text_refuted and its corollaries."
 },
 "C68": {
  "status": "proved",
  "note": "The statement is the exact behaviour of the code and is proved in full. The intended claim that the Android binding accepts every Java string fails (C68_android_refuted)."
 },
 "C70": {
  "status": "proved",
  "note": "The statement is the exact behaviour of the code and is proved in full. The intended claim (always applied) fails: C70_no_added_vocabulary_refuted, C70_erased_text_refuted, C70_prefix_space_refuted."
 },
 "C71": {
  "status": "proved",
  "note": "The statement is the exact behaviour of the code and is proved in full. The intended claim for every tokenizer fails: C71_race_refuted, C71_empty_token_refuted."
 },
 "C72": {
  "status": "proved",
  "note": "The statement is the exact behaviour of the code and is proved in full. Each proviso is needed: C72_punctuation_refuted, C72_split_character_refuted, C72_prefix_word_refuted."
 },
 "C74": {
  "status": "proved",
  "note": "The statement is the exact behaviour of the code and is proved in full. The intended claim (the JSON string value of every key) fails: C74_escaped_keys_refuted, C74_double_quote_refuted."
 },
 "C75": {
  "status": "proved",
  "note": "The statement is the exact behaviour of the code and is proved in full. The intended rejection fails: C75_dropped_silently_refuted, C75_decoder_refuted."
 },
 "C77": {
  "status": "proved",
  "note": "The statement is the exact behaviour of the code and is proved in full. The intended claim for every text fails: C77_nul_refuted, C77_supplementary_refuted."
 },
 "C78": {
  "status": "proved",
  "note": "The statement is the exact behaviour of the code and is proved in full. The intended claim for every string fails: C78_nul_refuted, C78_supplementary_refuted."
 },
 "C80": {
  "status": "proved",
  "note": "The statement is the exact behaviour of the code and is proved in full. The intended claim that a missing component is skipped in decode and add_tokens fails: C80_decode_refuted, C80_add_tokens_refuted."
 },
 "C110": {
  "status": "proved",
  "note": "The statement is the exact behaviour of the code and is proved in full. The intended claim fails: C110_case, C110_true_position."
 },
 "C20": {
  "status": "proved",
  "note": "The statement is the exact behaviour of the code and is proved in full. The intended claim fails for each of the four decoders (C20_decoders_discard)."
 },
 "C22": {
  "status": "proved",
  "note": "The statement is the exact behaviour of the code and is proved in full. The intended claim for every byte fails (C22_byte_level_inverse_boundary: the bytes of U+4E00)."
 },
 "C113": {
  "status": "proved",
  "note": "The statement describes the code as it is; C113_strip_accents_refuted refutes the intended reading of strip_accents = false with lowercase."
 },
 "C115": {
  "status": "proved",
  "note": "The statement describes the code as it is; C115_identical_refuted refutes the intended reading of the comparison."
 },
 "C123": {
  "status": "proved",
  "note": "Proved for tokens without U+FFFD; C123_replacement_refuted shows the exception."
 },
 "C124": {
  "status": "proved",
  "note": "C124_unknown_refuted shows that without the hypotheses (absent entries / no unknown token) more entries can change and even lose an encoding; the statement says so."
 },
 "C125": {
  "status": "proved",
  "note": "C125_unknown_refuted shows that part (d) needs its hypothesis (no unknown word); the statement says so."
 },
 "C126": {
  "status": "proved",
  "note": "C126_gap_refuted shows why, without an unknown token, the hypothesis has to exclude scattered occurrences too; the statement says so."
 },
 "C127": {
  "status": "proved",
  "note": "C127_low_bytes and C127_ascii are the property; C127_added_text_refuted shows that the intended reading fails for non-ASCII added tokens."
 },
 "C129": {
  "status": "proved",
  "note": "screens exactly characterised; refutations: an emoji or an empty input ends the process"
 },
 "C131": {
  "status": "proved",
  "note": "Proved for histories in which each text always has the same settings; the exception (a text normal first, special later, with different settings) is shown by C131_batch_refuted."
 },
 "C132": {
  "status": "proved",
  "note": "Exact characterisation proved; the natural reading 'the reported place holds the word' is refuted for NFC by C132_place_refuted."
 },
 "C133": {
  "status": "proved",
  "note": "Exact characterisation proved; the natural reading 'the reported place holds the word' is refuted for uncased tokenizers by C133_place_refuted."
 },
 "C144": {
  "status": "proved",
  "note": "C144_overlap_refuted shows that the condition is needed: an encode call that overlaps an addition can answer neither as before nor as after it, even with atomic accesses."
 },
 "C145": {
  "status": "proved",
  "note": "The bound is needed: C145_prepend_refuted shows an overflow when it is exceeded."
 },
 "C146": {
  "status": "proved",
  "note": "The bound is needed: C146_emoji_refuted shows an overflow when it is exceeded."
 },
 "C147": {
  "status": "proved",
  "note": "The bound is needed: C147_emoji_refuted shows an overflow when it is exceeded."
 }
}