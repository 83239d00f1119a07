{"id": "C01", "title": "Right truncation yields exact strided windows", "statement": "With direction Right, strategy LongestFirst or OnlyFirst and 0 <= stride < max_length < n (n = number of tokens), truncate_encoding returns the first max_length positions of every column, and its overflowing list holds the successive windows [k*(max_length-stride), min(k*(max_length-stride)+max_length, n)) for k=1,2,... up to and including the first one that reaches n; every column is cut by the same window and no token is lost.", "quantifier": "all encodings with parallel columns, all max_length and stride with 0<=stride<max_length<n", "why_tests_cant": "every length, stride and content of the encoding is a separate input; tests try two", "anchors": ["src/utils.cpp: truncate, Truncation::truncate_encoding"]}
{"id": "C02", "title": "Left truncation keeps the last max_length tokens and strides backwards", "statement": "With direction Left, strategy LongestFirst or OnlyFirst and 0 <= stride <= max_length-2 < n-2 (n = number of tokens), truncate_encoding returns the last max_length positions of every column, and its overflowing list holds the successive windows ending at n-k*(max_length-stride-1), of max_length positions each (fewer at the start of the text), for k=1,2,... up to and including the first one that reaches position 0; every column is cut by the same window. Consecutive windows therefore overlap by stride+1 tokens, one more than the configured stride.", "quantifier": "all encodings with parallel columns, all max_length and stride with 0<=stride<=max_length-2 and max_length<n", "why_tests_cant": "every length, stride and content of the encoding is a separate input; tests try two", "anchors": ["src/utils.cpp: truncate, Truncation::truncate_encoding"], "intended": "With direction Left and truncation needed, truncate_encoding returns the last max_length positions of every column, and consecutive overflowing windows overlap by exactly stride tokens."}
{"id": "C03", "title": "Exactly when truncation terminates", "statement": "For every encoding of fewer than 2^31 tokens and every truncation configuration, truncate_encoding returns if and only if it is not the case that truncation is needed (strategy LongestFirst/OnlyFirst, 0 < max_length < n) and either the direction is Right with stride equal to max_length or the direction is Left with max_length-stride <= 1; then it loops forever.", "quantifier": "all encodings, directions, strategies, max_length and stride", "why_tests_cant": "non-termination cannot be observed by a finite test, and the bad parameter combinations are a thin slice", "anchors": ["src/utils.cpp: truncate, Truncation::truncate_encoding"], "intended": "truncate_encoding returns for every encoding and every truncation configuration."}
{"id": "C04", "title": "Truncation bounds the length and leaves short encodings alone", "statement": "When truncation is needed (strategy LongestFirst/OnlyFirst, 0 < max_length < n), every encoding truncate_encoding produces, overflowing ones included, has at most max_length ids; in every other case (it fits, max_length <= 0, or another strategy) the encoding is returned unchanged, except that max_length = 0 empties its overflowing list.", "quantifier": "all encodings, strategies, directions, max_length and stride", "why_tests_cant": "every length, stride and content of the encoding is a separate input; tests try two", "anchors": ["src/utils.cpp: truncate, Truncation::truncate_encoding"], "intended": "After truncate_encoding the number of ids is at most max_length, and an encoding that already fits is returned unchanged."}
{"id": "C05", "title": "Truncation with an unrecognised direction", "statement": "A truncation whose direction string is neither Left nor Right (null, lower case, misspelt) returns normally on every encoding that needs no truncation, and executes undefined behaviour (reads the first of zero parts) on every encoding that needs it.", "quantifier": "all direction strings and all encodings", "why_tests_cant": "tests use the two good spellings", "anchors": ["src/utils.cpp: truncate, Truncation::truncate_encoding", "src/utils.cpp: get_truncation_direction"], "intended": "A truncation whose direction string is neither Left nor Right (null, lower case, misspelt) never executes undefined behaviour when truncating."}
{"id": "C06", "title": "Padding reaches the target length and preserves the content", "statement": "pad_encoding with direction Left/Right produces, for the encoding and every overflowing encoding, a result of length max(own length, target) where target is the fixed size (or the main encoding's length) rounded up to the multiple; the original columns survive as a contiguous block (suffix for Left, prefix for Right) and the added positions carry pad_id, pad_type_id, pad_token, offsets (0,0), attention 0 and special mask 1.", "quantifier": "all encodings (with any nesting of overflowing), sizes, multiples and pad values", "why_tests_cant": "the claim ranges over all lengths, multiples and overflow shapes", "anchors": ["src/utils.cpp: pad, Padding::pad_encoding"]}
{"id": "C07", "title": "Padding is idempotent and a no-op when nothing is missing", "statement": "Padding an already padded encoding again changes nothing, and padding an encoding whose length (and that of its overflowing parts) already reaches the target changes nothing.", "quantifier": "all padding configurations with a non-negative target and all encodings", "why_tests_cant": "idempotence is a universally quantified equation", "anchors": ["src/utils.cpp: pad, Padding::pad_encoding"]}
{"id": "C08", "title": "A negative padding target is rejected, not padded", "statement": "If the fixed padding size is negative (e.g. strategy given as the bare string Fixed), pad_encoding with a known direction fails with an exception instead of returning an encoding.", "quantifier": "all encodings and all negative fixed sizes", "why_tests_cant": "depends on signed/unsigned conversion for every length", "anchors": ["src/utils.cpp: pad, Padding::pad_encoding", "src/utils.cpp: with_padding"]}
{"id": "C09", "title": "Padding positions carry word index 0", "statement": "The positions pad_encoding adds, in the encoding and in every overflowing encoding, have word index 0, and the words of the original positions are kept in order; so they cannot be told apart from the tokens of the first word by the words column.", "quantifier": "all encodings that receive padding", "why_tests_cant": "tests pin whatever the code does", "anchors": ["src/utils.cpp: pad, Padding::pad_encoding"], "intended": "Positions added by padding have no word index (std::nullopt), so they cannot be confused with the tokens of word 0."}
{"id": "C10", "title": "All columns of an Encoding stay parallel", "statement": "In the Encoding returned by encode, and in all its overflowing encodings, ids, type_ids, tokens, words, offsets, special_tokens_mask and attention_mask have the same length, provided every template special token lists as many ids as tokens.", "quantifier": "all texts, tokenizers and add_special_tokens flags", "why_tests_cant": "an invariant through a composition of stages over all inputs", "anchors": ["src/tokenizer.cpp: Tokenizer::encode, into_encoding, do_tokenize, do_post_process", "src/utils.cpp: truncate, Truncation::truncate_encoding", "src/utils.cpp: pad, Padding::pad_encoding", "src/post_processor.cpp: TemplateProcessing::process", "src/post_processor.cpp: ByteLevelProcessing::process_offsets, process"]}
{"id": "C11", "title": "How many ids encode returns", "statement": "The number of ids encode returns is the number of the text's tokens, cut to max_length when truncation is needed, plus what the post-processor adds to an encoding of that length, then brought up to the padding target. In particular with truncation active and without padding the result respects max_length if and only if the post-processor adds nothing: special tokens come on top of max_length.", "quantifier": "all texts and configurations with truncation", "why_tests_cant": "needs all text lengths and templates", "anchors": ["src/tokenizer.cpp: Tokenizer::do_post_process", "src/utils.cpp: truncate, Truncation::truncate_encoding", "src/post_processor.cpp: TemplateProcessing::process"], "intended": "With truncation configured, encode never returns more than max_length ids (the model's input limit), special tokens included."}
{"id": "C12", "title": "Masks mean what they say", "statement": "In encode's result attention_mask is 0 exactly on padding and 1 elsewhere, and special_tokens_mask is 1 exactly on template special tokens and padding, 0 on text tokens.", "quantifier": "all texts, templates, paddings", "why_tests_cant": "an invariant of the whole pipeline", "anchors": ["src/tokenizer.cpp: Tokenizer::encode, into_encoding, do_tokenize, do_post_process", "src/post_processor.cpp: TemplateProcessing::process", "src/utils.cpp: pad, Padding::pad_encoding"]}
{"id": "C13", "title": "Template post-processing assembles exactly the template", "statement": "TemplateProcessing yields, in template order, the text columns for each Sequence piece (type ids set by the latest A piece) and, when add_special_tokens is true, the ids/tokens of each declared special token with word null, offsets (0,0), special mask 1, attention 1; an undeclared special token contributes nothing.", "quantifier": "all templates, special-token tables and encodings", "why_tests_cant": "all templates, not the BERT one", "anchors": ["src/post_processor.cpp: TemplateProcessing::process"]}
{"id": "C14", "title": "add_special_tokens=false adds nothing", "statement": "With add_special_tokens=false a template with one Sequence piece returns the text's ids, tokens, words, offsets and masks unchanged.", "quantifier": "all single-sequence templates and encodings", "why_tests_cant": "universal over templates", "anchors": ["src/post_processor.cpp: TemplateProcessing::process"]}
{"id": "C15", "title": "Overflowing windows through post-processing", "statement": "With a post-processor that contains no TemplateProcessing (or none), the overflowing windows made by truncation are all in encode's result, in order, each post-processed and padded like the main encoding; with a TemplateProcessing anywhere in the post-processor the result has no overflowing encoding at all.", "quantifier": "all texts long enough to truncate, all post-processors", "why_tests_cant": "requires combining stages on all inputs", "anchors": ["src/post_processor.cpp: TemplateProcessing::process", "src/post_processor.cpp: ByteLevelProcessing::process_offsets, process"], "intended": "If truncation produced overflowing encodings, they are still present (and post-processed) in encode's result."}
{"id": "C16", "title": "ByteLevel post-processing only trims spaces from offsets", "statement": "ByteLevel post-processing changes nothing but offsets; for offsets (s,e) with s<=e each new pair lies inside the old one, and without add_prefix_space it removes exactly as many positions at each end as the token has leading/trailing space symbols (clamped).", "quantifier": "all encodings with parallel tokens/offsets", "why_tests_cant": "all token texts and offsets", "anchors": ["src/post_processor.cpp: ByteLevelProcessing::process_offsets, process"]}
{"id": "C17", "title": "Sequence post-processing is left-to-right composition", "statement": "A Sequence post-processor behaves as running its members one after another on the result of the previous one, and an empty one is the identity.", "quantifier": "all lists of post-processors and encodings", "why_tests_cant": "all compositions", "anchors": ["src/post_processor.cpp: SequenceProcessing::process"]}
{"id": "C18", "title": "WordPiece decoding rule", "statement": "With cleanup off, WordPiece decoding leaves the first token alone, strips the continuation prefix from every later token that starts with it, prefixes every other later token with one space, and keeps order and count.", "quantifier": "all token lists and prefixes", "why_tests_cant": "all token lists", "anchors": ["src/decoder.cpp: WordPieceDecoder::decode_chain"]}
{"id": "C19", "title": "Cleanup replacement terminates and is leftmost non-overlapping", "statement": "The text clean-up of the WordPiece decoder terminates on every token and each rule replaces exactly the leftmost non-overlapping occurrences of its pattern, in the documented rule order.", "quantifier": "all byte strings", "why_tests_cant": "all strings; a replacement loop may diverge or re-scan its own output", "anchors": ["src/decoder.cpp: replace, cleanup_token"]}
{"id": "C20", "title": "The Replace, Fuse, Strip and ByteFallback decoders discard all text", "statement": "Each of the decoders Fuse, Replace, Strip and ByteFallback returns no tokens whatever tokens it is given. Every decoder returns on every token list, and a decoder (with any nesting of sequences) turns every token list into the empty text if and only if one of these four occurs in it.", "quantifier": "all token lists and all decoders", "why_tests_cant": "no test exists; must hold for all token lists", "anchors": ["src/decoder.cpp: ReplaceDecoder::decode_chain, FuseDecoder::decode_chain, StripDecoder::decode_chain, ByteFallbackDecoder::decode_chain"], "intended": "A decoder listed as supported never discards the tokens: Fuse returns their concatenation, Replace substitutes, Strip trims and ByteFallback decodes byte tokens."}
{"id": "C21", "title": "decode resolves ids and drops exactly the special tokens", "statement": "decode looks every id up first in the added tokens and then in the model, drops exactly those whose text is a registered special token when skip_special_tokens is true, keeps the order, and passes the rest to the decoder; an id known to neither fails with an exception and never yields a partial string.", "quantifier": "all id sequences, vocabularies and added-token histories", "why_tests_cant": "all id sequences", "anchors": ["src/tokenizer.cpp: Tokenizer::decode"]}
{"id": "C22", "title": "For which bytes ByteLevel decoding inverts the byte-level alphabet", "statement": "ByteLevel-decoding the characters the byte-level table assigns to the bytes of a text, however they are grouped into tokens, gives back the same bytes if and only if every byte is 0x00-0x7E, 0xA1-0xAC or 0xAE-0xFF; in all cases it gives one byte per byte, and exactly the bytes in these ranges come back right.", "quantifier": "all byte strings and all groupings into tokens", "why_tests_cant": "256^n inputs", "anchors": ["src/decoder.cpp: ByteLevelDecoder::decode_chain", "src/common.cpp: bytes_char"], "intended": "For every byte string, ByteLevel-decoding the characters the byte-level table assigns to its bytes gives back the same bytes."}
{"id": "C23", "title": "The byte-level alphabet is a bijection onto printable characters", "statement": "bytes_char assigns to each of the 256 byte values exactly one character, different bytes get different characters, no character is a space or control character, and printable ASCII maps to itself.", "quantifier": "all 256 byte values and all pairs", "why_tests_cant": "pairwise claim over the table", "anchors": ["src/common.cpp: bytes_char"]}
{"id": "C24", "title": "WordPiece is exactly greedy longest-match-first", "statement": "For a word not longer than max_input_chars_per_word, tokenize returns tokens iff they are the greedy segmentation: at each position the longest prefix (with the continuation prefix when not at the start) found in the vocabulary, with the vocabulary's id.", "quantifier": "all vocabularies, prefixes and words", "why_tests_cant": "all words and vocabularies", "anchors": ["src/model.cpp: WordPiece::tokenize"]}
{"id": "C25", "title": "WordPiece tokens tile the word", "statement": "The offsets of the WordPiece tokens of a word start at 0, are non-empty and contiguous and end at its length, and each token's text is the covered substring (with the continuation prefix when not first), so no character is lost or duplicated; the unknown token covers the whole word.", "quantifier": "all vocabularies and words", "why_tests_cant": "all words", "anchors": ["src/model.cpp: WordPiece::tokenize"]}
{"id": "C26", "title": "WordPiece emits the unknown token exactly when it must", "statement": "A word yields the single unknown token iff it is longer than max_input_chars_per_word or has no greedy segmentation, with the unknown token's vocabulary id.", "quantifier": "all vocabularies and words", "why_tests_cant": "all words", "anchors": ["src/model.cpp: WordPiece::tokenize"]}
{"id": "C27", "title": "BPE merging terminates without undefined behaviour", "statement": "For every non-empty initial symbol sequence, every merge table, every tie-breaking of the priority queue and every random stream, the merge loop terminates and never accesses memory out of range.", "quantifier": "all symbol sequences, merge tables, conforming priority queues, dropout streams", "why_tests_cant": "unbounded schedules of queue pops", "anchors": ["src/model.cpp: Word::merge_all"]}
{"id": "C28", "title": "BPE result is a fully merged form of the word", "statement": "Without dropout, the tokens of a word are obtained from its initial symbols by merging adjacent pairs listed in the merge table, total length is preserved, and no adjacent pair of the result is mergeable.", "quantifier": "all words, merge tables and tie-breakings", "why_tests_cant": "all words and tables", "anchors": ["src/model.cpp: Word::merge_all"]}
{"id": "C29", "title": "BPE applies merges in decreasing rank", "statement": "Without dropout and when different mergeable pairs give different ids, every merge the BPE model performs has the HIGHEST rank (is the latest listed) among the merges applicable to the current symbols, for every history and every priority-queue tie-breaking; it agrees with the reference order (lowest rank first) when no two merges of different rank ever compete.", "quantifier": "all words and merge tables", "why_tests_cant": "order effects appear only for particular words and tables", "anchors": ["src/model.cpp: Word::merge_all", "include/tokenizers/model.h: Merge::operator<"], "intended": "Each merge the BPE model performs is one of the earliest-listed (lowest rank) merges applicable to the current symbol sequence, as in the reference algorithm."}
{"id": "C30", "title": "BPE is lossless on known characters", "statement": "If every byte of a word is in the vocabulary, ids are unique and there is no prefix/suffix, the token texts concatenate to the word and their offsets tile it.", "quantifier": "all words over the known alphabet, all vocabularies and merge lists", "why_tests_cant": "all words", "anchors": ["src/model.cpp: BPE::merge_word, BPE::word_to_tokens, BPE::BPE", "src/model.cpp: Word::merge_all"]}
{"id": "C31", "title": "What BPE tokens account for", "statement": "For every model its constructor accepts, every history and every word not looked up whole: the tokens tile exactly as many positions as the initial symbols cover (known pieces, unknown pieces when there is an unknown token, fallback bytes found); if that is none the call is undefined behaviour. Nothing is lost if and only if there is an unknown token or every byte is in the vocabulary or found by the byte fallback.", "quantifier": "all words and vocabularies", "why_tests_cant": "needs words with unknown characters in all positions and configs", "anchors": ["src/model.cpp: BPE::merge_word, BPE::word_to_tokens, BPE::BPE", "src/model.cpp: Word::merge_all"], "intended": "For every word and vocabulary, the BPE tokens account for every byte of the word (by a token, the unknown token or byte fallback), and tokenizing any word is well defined."}
{"id": "C32", "title": "Unknown characters become the unknown token, fused on request", "statement": "With an unknown token in the vocabulary and no merges, each maximal run of unknown bytes becomes one unknown token when fuse_unk is set and one per byte otherwise, covering exactly those bytes.", "quantifier": "all words and vocabularies", "why_tests_cant": "all run structures", "anchors": ["src/model.cpp: BPE::merge_word, BPE::word_to_tokens, BPE::BPE"]}
{"id": "C33", "title": "What byte fallback looks up", "statement": "With byte_fallback, an unknown byte b is looked up as the text \"<000\" followed by the byte itself and \">\", never as the documented <0xNN>: the initial symbols of a word are determined by the known pieces, those texts and the unknown token, and a model's <0xNN> tokens have no influence.", "quantifier": "all bytes and vocabularies", "why_tests_cant": "all 256 bytes", "anchors": ["src/model.cpp: BPE::merge_word, BPE::word_to_tokens, BPE::BPE"], "intended": "With byte_fallback, an unknown byte b is emitted as the vocabulary token <0xNN> for that byte whenever the vocabulary has it."}
{"id": "C34", "title": "The BPE cache is transparent", "statement": "For every sequence of earlier tokenize calls on the same model, tokenizing a word returns exactly what a fresh model returns.", "quantifier": "all call histories and words", "why_tests_cant": "all histories", "anchors": ["src/model.cpp: BPE::tokenize_with_cache, BPE::tokenize"]}
{"id": "C35", "title": "Every BPE token id resolves to a vocabulary entry", "statement": "For a model built by its constructor, tokenization never fails to look up a token's text: every emitted id is a vocabulary id.", "quantifier": "all vocabularies, merge lists and words", "why_tests_cant": "all vocabularies", "anchors": ["src/model.cpp: BPE::merge_word, BPE::word_to_tokens, BPE::BPE"]}
{"id": "C36", "title": "BPE dropout extremes and determinism", "statement": "Dropout larger than every random draw performs no merge, tokenization with dropout never uses the cache, and the same word always gives the same tokens.", "quantifier": "all words, histories and dropout values", "why_tests_cant": "randomised behaviour cannot be settled by sampling", "anchors": ["src/model.cpp: Word::merge_all", "src/model.cpp: BPE::tokenize_with_cache, BPE::tokenize"]}
{"id": "C37", "title": "ignore_merges emits the whole word", "statement": "With ignore_merges and no dropout, a word present in the vocabulary is returned as that one token with its id and text, for every cache, but with offsets (0,0) instead of the word's span.", "quantifier": "all words in the vocabulary", "why_tests_cant": "all words", "anchors": ["src/model.cpp: BPE::tokenize_with_cache, BPE::tokenize"], "intended": "With ignore_merges, a word present in the vocabulary is returned as that one token covering the whole word."}
{"id": "C38", "title": "Added-token ids are fresh, stable and unique", "statement": "Starting from the constructor and over any history of encode, decode, add_tokens and add_special_tokens calls (including calls that throw or are undefined) on a model with ids 0..size-1, size > 0, every addition succeeds, a token's id never changes once assigned, a token in the model keeps the model's id, every other token gets an id different from all model ids and all other added tokens, and decoding the id gives the token back.", "quantifier": "all histories of calls, all dense vocabularies, all configured tokens", "why_tests_cant": "all histories", "anchors": ["src/added_vocabulary.cpp: AddedVocabulary::add_tokens, refresh_added_tokens", "src/tokenizer.cpp: Tokenizer::Tokenizer, add_tokens, encode, decode"], "intended": "Over any history of add_tokens/add_special_tokens calls on a model with ids 0..size-1, a token's id never changes once assigned, a token in the model keeps the model's id, and every other token gets an id different from all model ids and all other added tokens."}
{"id": "C39", "title": "Added ids decode to the added text", "statement": "After any history of additions, decoding the id assigned to an added token gives exactly its content.", "quantifier": "all histories, all dense injective vocabularies", "why_tests_cant": "all histories", "anchors": ["src/added_vocabulary.cpp: AddedVocabulary::add_tokens, refresh_added_tokens", "src/tokenizer.cpp: Tokenizer::decode", "src/added_vocabulary.cpp: AddedVocabulary::id_to_token"]}
{"id": "C40", "title": "add_tokens reports the number of non-empty tokens and registers special ones", "statement": "add_tokens returns the number of tokens with non-empty content, and is_special_token holds exactly for the contents of special tokens added so far.", "quantifier": "all histories of additions", "why_tests_cant": "all histories", "anchors": ["src/added_vocabulary.cpp: AddedVocabulary::add_tokens, refresh_added_tokens"]}
{"id": "C41", "title": "Added-token matching partitions the text", "statement": "Splitting a text by added tokens without strip/single-word flags yields contiguous, non-overlapping segments that cover the text exactly, each matched segment being the text of an added token with its id; the pieces that come out of extraction and normalization have consecutive spans and a recognised piece carries exactly its own token.", "quantifier": "all texts and added-token sets", "why_tests_cant": "all texts", "anchors": ["src/added_vocabulary.cpp: AddedVocabulary::find_matches"]}
{"id": "C42", "title": "Which occurrences of added tokens are found", "statement": "Added tokens without strip/single-word flags are found exactly by this scan of the text: only at the beginning, directly after a space and directly after a match, the shortest added token that occurs there and contains no space; each such match is reported with its position and id, nothing else is, and the matches are unique.", "quantifier": "all texts and added-token sets", "why_tests_cant": "all positions and overlaps", "anchors": ["src/added_vocabulary.cpp: AddedVocabulary::find_matches"], "intended": "An added token occurring in the text is recognised wherever it occurs, and when several start at the same place the longest is taken."}
{"id": "C43", "title": "Tokens added at run time", "statement": "In every state a tokenizer can reach, adding tokens whose texts are not in the model's vocabulary reports success but changes the result of encode on no text at all; adding a plain non-normalized token whose text is in the vocabulary of a WordPiece model (contains no space, fits max_input_chars_per_word, no other added token is a prefix of it) makes encode of that text return exactly its id, before truncation, post-processing and padding and without a ByteLevel pre-tokenizer.", "quantifier": "all new tokens and models", "why_tests_cant": "all tokens and models", "anchors": ["src/added_vocabulary.cpp: AddedVocabulary::add_tokens, refresh_added_tokens", "src/added_vocabulary.cpp: AddedVocabulary::find_matches", "src/tokenizer.cpp: Tokenizer::encode, into_encoding, do_tokenize, do_post_process"], "intended": "After add_tokens with a new token, encode of a text consisting of that token returns its id."}
{"id": "C44", "title": "What a recognised added token encodes to", "statement": "The model tokenizes a recognised piece again, ignoring the recognition: with WordPiece it yields its own id exactly when it is not longer than max_input_chars_per_word or is the unknown token itself (otherwise the unknown token); with BPE and ignore_merges (no dropout) it yields its own id; with BPE in general it yields whatever the merges give.", "quantifier": "all added tokens and models", "why_tests_cant": "all models", "anchors": ["src/added_vocabulary.cpp: AddedVocabulary::extract_and_normalize", "src/model.cpp: WordPiece::tokenize", "src/model.cpp: BPE::tokenize_with_cache, BPE::tokenize"], "intended": "When a text segment is recognised as an added token, encode emits exactly that token's id for it."}
{"id": "C45", "title": "When loading added tokens from the configuration is well defined", "statement": "Constructing a tokenizer with a model (ids 0..size-1, size > 0) whose configuration lists added tokens completes if and only if every listed token with a text has the text of a listed special token; otherwise it executes undefined behaviour, as it does without a model as soon as one token has a text.", "quantifier": "all added-token lists", "why_tests_cant": "undefined behaviour may pass a test silently", "anchors": ["src/tokenizer.cpp: Tokenizer::Tokenizer", "src/added_vocabulary.cpp: AddedVocabulary::add_tokens, refresh_added_tokens"], "intended": "Constructing a tokenizer whose configuration lists added tokens (special or not) executes no undefined behaviour."}
{"id": "C46", "title": "lstrip, rstrip and single_word do exactly what they say on ASCII texts", "statement": "For every ASCII text and added tokens not beginning with white space, matching never fails, a matched added token with lstrip/rstrip absorbs exactly the whitespace next to it, and a single_word token is recognised exactly when no letter, digit or underscore stands next to it; for other texts matching may throw.", "quantifier": "all texts (ASCII or not)", "why_tests_cant": "index-unit confusion shows only on particular mixed texts", "anchors": ["src/added_vocabulary.cpp: AddedVocabulary::find_matches", "src/added_vocabulary.cpp: space_leftmost_at_end, space_rightmost_at_start"], "intended": "A matched added token with lstrip/rstrip absorbs exactly the whitespace next to it and matching never fails, for any text."}
{"id": "C47", "title": "A fresh text's alignment table is exact", "statement": "For every text, a freshly built NormalizedString maps each UTF-16 unit i of the text to the original span (i,i+1).", "quantifier": "all texts, including supplementary characters", "why_tests_cant": "all texts", "anchors": ["src/normalizer.cpp: NormalizedString::NormalizedString, transform, transform_range"]}
{"id": "C48", "title": "Chinese-character padding is exact and keeps alignment", "statement": "handle_chinese_chars returns for every text, surrounds with one space on each side exactly the characters of the BERT CJK blocks except U+2B820..U+2B91F, changes nothing else, and each output character still maps to the original character it came from when the text is in the basic plane.", "quantifier": "all texts", "why_tests_cant": "all texts", "anchors": ["src/normalizer.cpp: BertNormalizer::do_handle_chinese_chars", "src/normalizer.cpp: NormalizedString::NormalizedString, transform, transform_range"], "intended": "handle_chinese_chars surrounds every CJK character with one space on each side, changes nothing else, and (for texts in the basic plane) each output character still maps to the original character it came from."}
{"id": "C49", "title": "clean_text: result, definedness and alignment", "statement": "Whenever clean_text returns, the text is exactly the input without NUL, U+FFFD and control characters, with every whitespace character turned into a space; it returns if and only if each deletion, made at a position that is not adjusted for the previous ones, fits the remaining table (otherwise out-of-range access); with nothing to delete it always returns and the alignment is untouched.", "quantifier": "all texts", "why_tests_cant": "alignment drifts only with several removals", "anchors": ["src/normalizer.cpp: BertNormalizer::do_clean_text", "src/normalizer.cpp: NormalizedString::NormalizedString, transform, transform_range"], "intended": "clean_text deletes exactly NUL, U+FFFD and control characters, turns every whitespace character into a space, keeps the rest in order, and the surviving characters still map to their original positions."}
{"id": "C50", "title": "Unicode normalization forms return ICU's text and are memory safe", "statement": "NFC/NFD/NFKC/NFKD return exactly ICU's normalization of the text, fail with an exception if ICU fails, and never access the alignment table out of range on a fresh text.", "quantifier": "all texts and all ICU results", "why_tests_cant": "all ICU outputs", "anchors": ["src/normalizer.cpp: NFC::normalize, NFD::normalize, NFKC::normalize, NFKD::normalize"]}
{"id": "C51", "title": "Exactly when accent stripping is memory safe", "statement": "For every text, BertNormalizer's accent stripping returns exactly the NFD form without its non-spacing marks if every such mark lies below (number of UTF-16 units + number of characters seen to decompose), accesses the alignment table out of range otherwise, and throws if ICU fails; for texts of the basic plane whose characters decompose into at most two it is safe and every character kept still maps to its original character.", "quantifier": "all texts", "why_tests_cant": "needs characters with multi-step decompositions", "anchors": ["src/normalizer.cpp: BertNormalizer::do_strip_accents", "src/normalizer.cpp: NormalizedString::NormalizedString, transform, transform_range"], "intended": "BertNormalizer with strip_accents or lowercase never accesses the alignment table out of range, for any text."}
{"id": "C52", "title": "What Strip removes", "statement": "Strip always returns and removes the maximal leading and/or trailing run of characters whose low byte is an ASCII white-space byte, and nothing else; for texts below U+0100 that is exactly the ASCII white space.", "quantifier": "all texts", "why_tests_cant": "all code points", "anchors": ["src/normalizer.cpp: Strip::normalize"], "intended": "Strip removes the maximal leading and/or trailing whitespace and nothing else."}
{"id": "C53", "title": "StripAccents removes exactly the combining marks U+0300..U+036F", "statement": "StripAccents deletes exactly the characters U+0300..U+036F, keeps order, and is idempotent.", "quantifier": "all texts", "why_tests_cant": "all texts", "anchors": ["src/normalizer.cpp: StripAccents::normalize"]}
{"id": "C54", "title": "Prepend on every text", "statement": "Prepend puts the given text in front of every non-empty input (throwing range_error when the prefix is not UTF-8), keeps the alignment for a one-character prefix, and accesses the alignment table out of range on the empty input.", "quantifier": "all texts and prefixes", "why_tests_cant": "edge inputs", "anchors": ["src/normalizer.cpp: Prepend::normalize", "src/normalizer.cpp: NormalizedString::NormalizedString, transform, transform_range"], "intended": "Prepend puts the given text in front of every input, including the empty one, without undefined behaviour."}
{"id": "C55", "title": "What Replace does to the text and when it is memory safe", "statement": "Replace leaves a text without match alone; with a one-character content and a one-character pattern it substitutes the content for every match if the j-th match (from 0) at position p satisfies p+j < number of UTF-16 units, and accesses the alignment table out of range otherwise; of a longer match only the first character is replaced; with a content of any other length it uses an invalidated iterator as soon as there is a match.", "quantifier": "all texts, patterns and contents", "why_tests_cant": "depends on the number and position of matches", "anchors": ["src/normalizer.cpp: Replace::normalize", "src/normalizer.cpp: NormalizedString::NormalizedString, transform, transform_range"], "intended": "Replace substitutes the content for every match of the pattern and never accesses the alignment table out of range."}
{"id": "C56", "title": "Sequence normalization is left-to-right composition", "statement": "A Sequence normalizer/pre-tokenizer/decoder behaves as running its members in order and an empty one is the identity.", "quantifier": "all lists of components and inputs", "why_tests_cant": "all compositions", "anchors": ["src/normalizer.cpp: SequenceNormalizer::normalize", "src/pre_tokenizer.cpp: SequencePreTokenizer::pre_tokenize", "src/decoder.cpp: SequenceDecoder::decode_chain"]}
{"id": "C57", "title": "Isolated splitting is lossless", "statement": "Splitting with Isolated behaviour yields pieces whose offsets tile the piece they came from and whose texts concatenate to it; with Removed behaviour exactly the matched spans are dropped.", "quantifier": "all texts and all regex match lists", "why_tests_cant": "all texts and patterns", "anchors": ["src/pre_tokenizer.cpp: find_matches, split_normalized, PreTokenizedString::split"]}
{"id": "C58", "title": "BERT pre-tokenization separates words", "statement": "After BERT pre-tokenization no piece contains whitespace, no piece is empty, every punctuation character is a piece of its own, and the pieces in order contain exactly the non-whitespace characters of the text.", "quantifier": "all texts", "why_tests_cant": "all texts", "anchors": ["src/pre_tokenizer.cpp: BertPreTokenizer::pre_tokenize, is_whitespace, is_bert_punc"]}
{"id": "C59", "title": "Recognised tokens in pre-tokenization", "statement": "Pre-tokenization without add_prefix_space never splits, drops, moves, reorders or renames a piece already recognised as an added token; BERT and Split leave its text alone too, ByteLevel re-encodes it byte by byte.", "quantifier": "all piece lists and pre-tokenizers", "why_tests_cant": "all piece lists", "anchors": ["src/pre_tokenizer.cpp: PreTokenizedString::split", "src/pre_tokenizer.cpp: ByteLevelPreTokenizer::pre_tokenize"], "intended": "Pre-tokenization never splits or alters a piece already recognised as an added token."}
{"id": "C60", "title": "ByteLevel pre-tokenization of every text", "statement": "On a platform with unsigned char, and on ASCII texts everywhere, ByteLevel pre-tokenization succeeds on every valid text, its pieces tile the text and each UTF-8 byte is written in the byte-level alphabet; on a platform with signed char (x86) every text with a non-ASCII character is rejected with out_of_range.", "quantifier": "all texts, both signedness conventions of char", "why_tests_cant": "depends on the platform's char signedness and on every byte", "anchors": ["src/pre_tokenizer.cpp: ByteLevelPreTokenizer::pre_tokenize"], "intended": "ByteLevel pre-tokenization succeeds on every valid non-empty text and re-encodes each UTF-8 byte of each piece by the byte-level alphabet."}
{"id": "C61", "title": "What ByteLevel use_regex splits by", "statement": "With use_regex=true, ByteLevel pre-tokenization isolates exactly the apostrophes (each with a directly following s) and leaves everything else in one piece: a text without an apostrophe is not split at all.", "quantifier": "all texts", "why_tests_cant": "all texts", "anchors": ["src/pre_tokenizer.cpp: ByteLevelPreTokenizer::ByteLevelPreTokenizer"], "intended": "With use_regex=true, ByteLevel pre-tokenization splits the text by the GPT-2 regular expression (contractions, letters, numbers, others, spaces)."}
{"id": "C62", "title": "What Split makes of its behavior and invert options", "statement": "Isolated keeps the delimiters as pieces and every other behavior (Removed, MergedWithPrevious, MergedWithNext, Contiguous, anything) acts as Removed, for every pattern and text; invert has no effect.", "quantifier": "all texts, patterns and options", "why_tests_cant": "all option/text combinations", "anchors": ["src/pre_tokenizer.cpp: SplitPreTokenizer::pre_tokenize", "src/common.cpp: get_split_delimiter_behavior"], "intended": "The Split pre-tokenizer's behavior and invert settings affect the result as documented (e.g. MergedWithPrevious keeps the delimiter, invert swaps matches and gaps)."}
{"id": "C63", "title": "What ByteLevel add_prefix_space does", "statement": "On a fresh non-empty text add_prefix_space puts one space in front unless there is white space already, and every character keeps its original position; otherwise it throws on an empty stored text, and, when it adds the space, forgets all earlier pieces, so that normalization and recognised tokens are lost.", "quantifier": "all texts", "why_tests_cant": "needs a normalizer, added tokens and the flag together", "anchors": ["src/pre_tokenizer.cpp: ByteLevelPreTokenizer::pre_tokenize"], "intended": "add_prefix_space only adds a leading space: the normalized text and the recognised added tokens are kept."}
{"id": "C64", "title": "Exactly when the empty text can be encoded", "statement": "encode of the empty string returns something only if the tokenizer has no added vocabulary and its pre-tokenizer leaves no piece of the empty text (BertPreTokenizer, ByteLevel with regex, ... ); then it is the post-processed empty encoding. With an added vocabulary, even an empty one, or with a piece left, it reads outside its tables or throws.", "quantifier": "all tokenizers", "why_tests_cant": "undefined behaviour may pass silently", "anchors": ["src/tokenizer.cpp: Tokenizer::encode, into_encoding, do_tokenize, do_post_process", "src/added_vocabulary.cpp: AddedVocabulary::extract_and_normalize", "src/normalizer.cpp: NormalizedString::NormalizedString, transform, transform_range"], "intended": "encode of the empty string executes no undefined behaviour."}
{"id": "C65", "title": "Token offsets point into the original text", "statement": "For a tokenizer whose normalizer leaves the text as it is and whose pre-tokenizer only cuts it (BertPreTokenizer, Split, Sequence), every WordPiece token of the text has offsets that delimit exactly the original characters (UTF-16 units) it was made from, and an unknown token's offsets delimit its whole word (the post-processor may be anything that does not trim offsets; special tokens list as many ids as names).", "quantifier": "all texts, vocabularies and added-token sets without matches", "why_tests_cant": "all texts", "anchors": ["src/tokenizer.cpp: Tokenizer::encode, into_encoding, do_tokenize, do_post_process", "src/normalizer.cpp: NormalizedString::NormalizedString, transform, transform_range", "src/added_vocabulary.cpp: AddedVocabulary::extract_and_normalize"]}
{"id": "C66", "title": "Word indices are consistent", "statement": "In the encoding built from a text the word indices are non-decreasing, and two tokens have the same index iff they come from the same piece.", "quantifier": "all texts", "why_tests_cant": "all texts", "anchors": ["src/tokenizer.cpp: Tokenizer::encode, into_encoding, do_tokenize, do_post_process"]}
{"id": "C67", "title": "encode is history independent", "statement": "The result of encode, decode, add_tokens and add_special_tokens depends only on the tokenizer's configuration and the tokens added so far: earlier encode and decode calls never change any later result, also with BPE dropout, whose random engine starts afresh for every word (for vocabularies with no id given twice, or without the empty token).", "quantifier": "all interleavings of encode, decode and add_tokens calls", "why_tests_cant": "all histories", "anchors": ["src/tokenizer.cpp: Tokenizer::encode, into_encoding, do_tokenize, do_post_process", "src/model.cpp: BPE::tokenize_with_cache, BPE::tokenize", "src/added_vocabulary.cpp: AddedVocabulary::find_matches"]}
{"id": "C68", "title": "Invalid code points are rejected by an exception", "statement": "encode on a text containing a surrogate or a value above U+10FFFF throws range_error, returns nothing and leaves the tokenizer unchanged, and no other text is rejected for that reason; the Android binding, which passes UTF-16 units, returns the ids of encode on every basic-plane text and throws range_error on every valid text with a supplementary character.", "quantifier": "all texts", "why_tests_cant": "all texts", "anchors": ["src/common.cpp: convert_to_string", "android/tokenizers_android/src/main/cpp/tokenizers_android_jni.cpp: encode"], "intended": "encode on a text containing a surrogate or a value above U+10FFFF throws and returns nothing; in particular the Android binding, which passes UTF-16 units, accepts every Java string."}
{"id": "C69", "title": "The BERT uncased pipeline is safe and exact on ASCII", "statement": "For every non-empty printable ASCII text the BERT-uncased pipeline (BertNormalizer, BertPreTokenizer, WordPiece, template) returns an encoding (no exception, no undefined behaviour) whose text tokens' offsets delimit the original substring equal, up to ASCII case, to the token.", "quantifier": "all non-empty printable ASCII texts and all vocabularies", "why_tests_cant": "all texts", "anchors": ["src/tokenizer.cpp: Tokenizer::encode, into_encoding, do_tokenize, do_post_process", "src/normalizer.cpp: BertNormalizer::normalize", "src/model.cpp: WordPiece::tokenize"]}
{"id": "C70", "title": "When the configured normalizer is applied", "statement": "With an added vocabulary, no added token in the text and no add_prefix_space, the pieces encode tokenizes are those of the normalized text, whatever the normalizer, provided it leaves something; without an added vocabulary the normalizer has no effect at all; if nothing is left of the text the original text is tokenized; with ByteLevel add_prefix_space the pieces are those of the text itself.", "quantifier": "all configurations and texts", "why_tests_cant": "interaction of two unrelated configuration fields", "anchors": ["src/tokenizer.cpp: Tokenizer::encode, into_encoding, do_tokenize, do_post_process"], "intended": "If a normalizer is configured, encode tokenizes the normalized text."}
{"id": "C71", "title": "Concurrent encode calls on one tokenizer", "statement": "Whatever the schedule and the number of calls, a finished encode call has the sequential result if single accesses to the shared members are atomic, and no call ever waits; there are no conflicting unsynchronised accesses when no call changes the tokenizer, in particular for every WordPiece tokenizer (no empty token) and every BPE model with dropout; and there is a data race as soon as two calls run that would change it (a word not yet cached).", "quantifier": "all thread interleavings", "why_tests_cant": "all schedules", "anchors": ["src/model.cpp: BPE::tokenize_with_cache, BPE::tokenize", "src/added_vocabulary.cpp: AddedVocabulary::find_matches", "src/tokenizer.cpp: Tokenizer::encode"], "intended": "Several threads may encode with one tokenizer at once: every call returns the sequential result and there are no conflicting unsynchronised accesses."}
{"id": "C72", "title": "Decoding an encoding restores the text", "statement": "For a text of single-space-separated words (each a punctuation character or free of punctuation), each segmentable without the unknown token and not beginning with the continuation prefix, with vocabulary pieces that do not cut a character in half and no added token in the text, decode(encode(text)) returns the text for the BERT-style WordPiece pipeline (no cleanup, no special tokens), also after any further additions.", "quantifier": "all such texts and vocabularies", "why_tests_cant": "all texts", "anchors": ["src/tokenizer.cpp: Tokenizer::encode, into_encoding, do_tokenize, do_post_process", "src/tokenizer.cpp: Tokenizer::decode", "src/model.cpp: WordPiece::tokenize"], "intended": "For a text of single-space-separated words (each a punctuation character or free of punctuation), each segmentable without the unknown token, decode(encode(text)) returns the text for the BERT-style WordPiece pipeline (no cleanup, no special tokens)."}
{"id": "C73", "title": "A malformed configuration is reported as an error", "statement": "Constructing from neither path nor config throws invalid_argument; any missing or wrongly typed field (this includes a string with an escape JSON does not allow and an integer that does not fit in 64 bits) throws runtime_error; no partially configured tokenizer is produced.", "quantifier": "all JSON documents", "why_tests_cant": "all documents", "anchors": ["src/tokenizer.cpp: Tokenizer::Tokenizer", "src/utils.cpp: with_truncation, with_padding", "src/added_vocabulary.cpp: with_added_vocabulary", "src/normalizer.cpp: with_normalizer", "src/pre_tokenizer.cpp: with_pre_tokenizer", "src/model.cpp: with_model", "src/decoder.cpp: with_decoder", "src/post_processor.cpp: with_post_processor"]}
{"id": "C74", "title": "Which tokens the vocabulary of a configuration gives", "statement": "The tokens known to the model are exactly the raw texts of the keys of the vocabulary object, the first of equal keys counting, with the ids cut to 32 bits; for a key without a backslash that is its JSON string value.", "quantifier": "all token strings, including ones with quotes and backslashes", "why_tests_cant": "all strings", "anchors": ["src/utils.cpp: get_map_ints_from_json"], "intended": "A token in the vocabulary object of the configuration is known to the model under its JSON string value."}
{"id": "C75", "title": "Supported and unsupported component types", "statement": "In an accepted configuration a component is present in the tokenizer if and only if its type is one of the supported ones; a component of any other type is dropped without an error.", "quantifier": "all type names", "why_tests_cant": "all names", "anchors": ["src/model.cpp: with_model", "src/decoder.cpp: with_decoder", "src/pre_tokenizer.cpp: with_pre_tokenizer", "src/normalizer.cpp: with_normalizer", "src/post_processor.cpp: with_post_processor"], "intended": "A configuration naming a component type the library does not implement is rejected rather than silently ignored."}
{"id": "C76", "title": "UTF-8 conversion round-trips", "statement": "convert_from_string(convert_to_string(s)) = s for every valid wide string s, and convert_from_string rejects every byte string that is not the encoding of a valid wide string.", "quantifier": "all wide strings and all byte strings", "why_tests_cant": "all strings", "anchors": ["src/common.cpp: convert_to_string, convert_from_string"]}
{"id": "C77", "title": "What Android decode returns", "statement": "The Java string returned by the Android binding's decode has exactly the characters of the decoded text up to its first NUL if these are all in the basic plane, and is null otherwise; so the whole text arrives if and only if it has neither NUL nor supplementary characters.", "quantifier": "all decoded texts, with and without supplementary characters and NUL", "why_tests_cant": "all Unicode strings", "anchors": ["android/tokenizers_android/src/main/cpp/tokenizers_android_jni.cpp: Java_xyz_omkar_tokenizers_Tokenizer_decode, NewStringUTF"], "intended": "The Java string returned by the Android binding's decode has exactly the characters of the UTF-8 text the C++ decode produced."}
{"id": "C78", "title": "What the Android constructor passes through", "statement": "The configuration bytes the C++ constructor sees are, character by character, the UTF-8 encoding with NUL written C0 80 and each supplementary character as two encoded surrogates; they are the UTF-8 encoding of the Java string if and only if it has neither.", "quantifier": "all Java strings", "why_tests_cant": "all Unicode strings", "anchors": ["android/tokenizers_android/src/main/cpp/tokenizers_android_jni.cpp: Java_xyz_omkar_tokenizers_Tokenizer_newTokenizer, GetStringUTFChars"], "intended": "The configuration bytes the C++ constructor sees are the UTF-8 encoding of the Java configuration string."}
{"id": "C79", "title": "A well-formed configuration yields the tokenizer it describes", "statement": "For every configuration in the documented tokenizer.json format with supported components (arbitrarily nested sequences, any vocabulary without escaped keys), constructing from it gives exactly the described truncation, padding, added tokens, normalizer, pre-tokenizer, model, decoder and post-processor; other keys and the order of keys do not matter.", "quantifier": "all configurations, all component trees, all vocabularies", "why_tests_cant": "all documents", "anchors": ["src/tokenizer.cpp: Tokenizer::Tokenizer", "src/utils.cpp: with_truncation, with_padding", "src/added_vocabulary.cpp: with_added_vocabulary", "src/normalizer.cpp: with_normalizer", "src/pre_tokenizer.cpp: with_pre_tokenizer", "src/model.cpp: with_model", "src/decoder.cpp: with_decoder", "src/post_processor.cpp: with_post_processor"]}
{"id": "C80", "title": "What missing optional components mean", "statement": "For encode a missing normalizer, pre-tokenizer or post-processor acts as an empty sequence of that kind, a missing decoder does not matter, and with no component at all a non-empty valid text has the empty encoding; decode with added vocabulary, model and decoder present returns a text or reports an unknown id, and is a null dereference when the added vocabulary (and some id), the decoder (and known ids) or the model (and an id that is no added token's) is missing.", "quantifier": "all subsets of missing components, all inputs", "why_tests_cant": "all configurations and inputs", "anchors": ["src/tokenizer.cpp: Tokenizer::encode", "src/tokenizer.cpp: Tokenizer::decode"], "intended": "A tokenizer whose configuration leaves components null can still encode and decode: a missing component is skipped."}
{"id": "C81", "title": "BERT-style tokenizers compute the reference tokenization", "statement": "For a WordPiece tokenizer with BertPreTokenizer, and a text in which no added token occurs and whose characters the normalizer changes in place, encode (before truncation, post-processing and padding) always succeeds and returns exactly the rows of the reference: split the normalized text at white space and around punctuation, then greedy longest-match-first in every word with the unknown token for words that are too long or have no segmentation, with word indices and original offsets. With any other normalizer a successful encode returns the same ids, tokens, words, types and masks as the reference on the normalized text.", "quantifier": "all tokenizers of that form, vocabularies, valid texts and Unicode classifications", "why_tests_cant": "an end-to-end equality of two functions over all texts and vocabularies", "anchors": ["src/tokenizer.cpp: Tokenizer::encode", "src/pre_tokenizer.cpp: BertPreTokenizer", "src/model.cpp: WordPiece::tokenize", "src/tokenizer.cpp: into_encoding"]}
{"id": "C82", "title": "Token offsets are ordered, disjoint and cover the text", "statement": "For the same tokenizers and texts the offsets returned by encode are increasing, non-empty and non-overlapping, and the characters they delimit are, in order, exactly the characters of the text that are not white space, each once.", "quantifier": "all valid texts and vocabularies", "why_tests_cant": "quantifies over all texts; a test checks one", "anchors": ["src/tokenizer.cpp: into_encoding", "src/model.cpp: WordPiece::tokenize"]}
{"id": "C83", "title": "The amount and kind of white space does not matter", "statement": "For a BERT-style WordPiece tokenizer, two texts with the same words separated by different white space give the same encoding up to offsets: same ids, tokens, word indices, type ids and masks, in all overflowing parts too, under every truncation, padding and post-processing configuration (or the same failure).", "quantifier": "all pairs of texts with the same words, all configurations", "why_tests_cant": "relates two runs over all inputs and configurations", "anchors": ["src/pre_tokenizer.cpp: BertPreTokenizer", "src/utils.cpp: truncate_encoding, pad_encoding", "src/post_processor.cpp: process"]}
{"id": "C84", "title": "Tokenization is compositional over white space", "statement": "For a BERT-style WordPiece tokenizer the ids and tokens of a text made of two texts separated by a white-space character are those of the first followed by those of the second.", "quantifier": "all pairs of texts", "why_tests_cant": "relates three runs over all inputs", "anchors": ["src/pre_tokenizer.cpp: BertPreTokenizer", "src/model.cpp: WordPiece::tokenize"]}
{"id": "C85", "title": "The uncased BERT pipeline ignores ASCII case", "statement": "With a lower-casing BertNormalizer two printable ASCII texts that differ only in letter case (and contain no added token) have the same encoding, offsets included, under every truncation, padding and post-processing configuration.", "quantifier": "all pairs of printable ASCII texts equal up to case", "why_tests_cant": "relates two runs over all inputs", "anchors": ["src/normalizer.cpp: BertNormalizer", "src/tokenizer.cpp: Tokenizer::encode"]}
{"id": "C86", "title": "Encoding and decoding never change the configuration", "statement": "Whatever texts are encoded and ids decoded before, a tokenizer's truncation, padding, normalizer, pre-tokenizer, model, decoder, post-processor and added tokens stay what they were; decode changes nothing at all, and the token/id assignments are only ever changed by adding tokens.", "quantifier": "all tokenizers and all histories of calls", "why_tests_cant": "a statement about every history of calls", "anchors": ["src/tokenizer.cpp: Tokenizer::encode", "src/tokenizer.cpp: Tokenizer::decode", "src/added_vocabulary.cpp"]}
{"id": "C87", "title": "Truncation loses no token", "statement": "With a stride for which truncation terminates (stride < max_length on the right, stride + 2 <= max_length on the left), and no post-processor or padding, every token of the untruncated encoding, with its id, type id, offsets, word and masks, appears in the truncated encoding or in one of its overflowing parts, and joining the parts while skipping the repeated positions (stride of them on the right, stride + 1 on the left) gives the untruncated encoding back.", "quantifier": "all encodings, limits and strides", "why_tests_cant": "sizes, limits and strides are unbounded", "anchors": ["src/utils.cpp: truncate_encoding"]}
{"id": "C88", "title": "Decoding can be streamed", "statement": "With the ByteLevel decoder, decoding a sequence of ids is decoding its parts and joining the texts; with the WordPiece decoder, what the ids after the first ones add depends on them alone; with either, a sequence that decodes has every beginning decode to a beginning of its text. A Sequence decoder does not keep this.", "quantifier": "all tokenizers with these decoders and all id sequences", "why_tests_cant": "the id sequences and the cut points are unbounded", "anchors": ["src/tokenizer.cpp: Tokenizer::decode", "src/decoder.cpp: ByteLevelDecoder::decode_chain", "src/decoder.cpp: WordPieceDecoder::decode_chain"]}
{"id": "C89", "title": "A BERT-style tokenizer encodes texts with added tokens exactly as the reference says", "statement": "For a tokenizer with BertNormalizer, BertPreTokenizer and a WordPiece model, whose added vocabulary is in any state reached by construction, add_tokens and encode calls, encode of a non-empty printable ASCII text returns exactly the reference rows: reading the text field by field (fields separated by U+0020), the shortest added token with normalized=false standing at the beginning of a field in the raw text is one word, and so on; the remainder of the field is case-folded, the shortest added tokens with normalized=true at its beginning are words, and the rest is split at white space and punctuation; every word is then segmented greedily, with ids, tokens, word numbers and offsets in the original text. A recognised token becomes exactly one token with its vocabulary id. The words are uniquely determined.", "quantifier": "all environments that treat printable ASCII as usual, all WordPiece models with a dense vocabulary, all histories of the added vocabulary with ASCII tokens without strip/single-word flags, all non-empty printable ASCII texts", "why_tests_cant": "tokens of both kinds can touch, nest, be prefixes of each other or of ordinary words in unboundedly many ways, after any history of additions", "anchors": ["src/added_vocabulary.cpp: extract_and_normalize, find_matches, refresh_added_tokens", "src/tokenizer.cpp: encode", "src/model.cpp: WordPieceModel::tokenize"]}
{"id": "C90", "title": "What a byte-level BPE tokenizer keeps of a text", "statement": "For a byte-level BPE tokenizer (ByteLevel pre-tokenizer and decoder, no affixes, no byte fallback, no unknown token in the vocabulary) and every text it can process: the tokens spell exactly the printable ASCII characters of the text that are tokens by themselves, in order, and decode returns exactly these; decode(encode(text)) is the text if and only if all its characters are such, so every space is lost; a piece without such a character makes encode read outside an empty word.", "quantifier": "all texts, vocabularies, merge tables, dropout values, cache states, added tokens and platforms", "why_tests_cant": "ranges over all texts and vocabularies; tests with single words do not show that spaces disappear", "anchors": ["src/pre_tokenizer.cpp: ByteLevelPreTokenizer::pre_tokenize", "src/model.cpp: BPE::merge_word", "src/decoder.cpp: ByteLevelDecoder::decode_chain", "src/tokenizer.cpp: Tokenizer::encode", "src/tokenizer.cpp: Tokenizer::decode"]}
{"id": "C91", "title": "add_special_tokens only adds special tokens", "statement": "Encoding a text with add_special_tokens=true and with false gives the same outcome (both return, or both fail in the same way), and the positions that come from the text - ids, type ids, tokens, word indices and masks - are the same, in the encoding and in every overflowing part; the offsets too unless a ByteLevel post-processor trims them with add_prefix_space. With false no position holds a special token of the template. (Special tokens list as many ids as tokens; a negative fixed padding size always fails.)", "quantifier": "all tokenizers, texts, truncation, padding and (nested) post-processor configurations", "why_tests_cant": "all texts and configurations", "anchors": ["src/tokenizer.cpp: Tokenizer::encode, do_post_process", "src/post_processor.cpp: TemplateProcessing::process, ByteLevelProcessing::process, SequenceProcessing::process", "src/utils.cpp: Padding::pad_encoding"]}
{"id": "C92", "title": "Results do not depend on hash-table iteration order", "statement": "If no token and no id occurs twice in the vocabulary, the order in which it is listed in the configuration or iterated in memory has no effect: construction succeeds or fails alike, and after any history of calls every encode, decode, add_tokens and add_special_tokens call has the same answer. With duplicate ids decode does depend on the order.", "quantifier": "all vocabularies, all permutations, all histories of calls", "why_tests_cant": "all iteration orders a hash table may have, all histories", "anchors": ["src/model.cpp: WordPiece::WordPiece, BPE::BPE, token_to_id, id_to_token", "src/added_vocabulary.cpp: AddedVocabulary::add_tokens", "src/tokenizer.cpp: Tokenizer::encode, decode, add_tokens"]}
{"id": "C93", "title": "A BPE tokenizer encodes a text word by word, exactly when every word has something in the vocabulary", "statement": "For a tokenizer with a BPE model and the BERT pre-tokenizer or none, on a text that contains no added token: if every word of the normalized text is a whole-word token the model may use directly, or has at least one byte that is in the vocabulary, has a byte-fallback token, or is replaced by the unknown token, then encode succeeds and its rows are those of the words in order, each word's tokens being obtained from the symbols of its bytes by merges of the table until none applies; if some word has nothing of the kind, encode reads outside an empty word (undefined behaviour). With an unknown token in the vocabulary every text can be encoded.", "quantifier": "all vocabularies, merge lists, dropout rates, affixes, flags, cache histories, heap orders, texts and normalizers that work in place", "why_tests_cant": "The failing texts depend on the vocabulary, and the merges of a word on the order in which equal-rank heap entries are popped and on what the cache holds; tests fix one of each.", "anchors": ["src/model.cpp: BPE::tokenize", "src/model.cpp: BPE::merge_word", "src/model.cpp: Word::merge_all", "src/tokenizer.cpp: Tokenizer::encode"]}
{"id": "C94", "title": "Offsets of BPE tokens are exact for ASCII words, and only for those", "statement": "If every byte of the words is accounted for, the spans of the tokens of a word tile the interval from the word's position to that position plus its number of bytes; this is the word's own interval if and only if the word is ASCII, otherwise the last span runs past the word. For an ASCII text whose characters are all in the vocabulary, without affixes, the text of every token is the part of the text its span covers, and the tokens together spell the words: only white space is lost.", "quantifier": "all vocabularies with unique texts and ids, merge lists, dropout rates, cache histories, heap orders and texts", "why_tests_cant": "A span is right or wrong depending on the bytes of all characters before it in its word and on the merges taken; the claim is about every text and every merge table.", "anchors": ["src/model.cpp: BPE::word_to_tokens", "src/model.cpp: BPE::tokenize", "src/tokenizer.cpp: Tokenizer::into_encoding"]}
{"id": "C95", "title": "Whatever pre-tokenizer cuts the text, it is encoded word by word, and a word cut past the end of the original text is undefined behaviour", "statement": "For a tokenizer with any combination of the BERT, Split and ByteLevel (without prefix space) pre-tokenizers, on a text that contains no added token: the text has exactly one list of words (each stage cuts every word of the stage before at white space and punctuation, at the matches of its pattern, or at apostrophes with bytes replaced by their characters), and if all words start inside the original text encode succeeds with the rows of the words in order (WordPiece: longest-match tokens; BPE: merged symbols, if every word has something in the vocabulary). If a word starts at or past the end of the original text, encode reads outside the alignment table. When no stage changes characters and no pattern matches the empty string, every word is a non-empty part of the text at the position it was cut at, so every text is encoded.", "quantifier": "all nested sequences of these pre-tokenizers, regular-expression engines, patterns, vocabularies, merge tables, cache histories and texts", "why_tests_cant": "The claim composes arbitrarily nested cutting stages with arbitrary engines; the failing texts (an empty match at the end, a character that has grown to several before a later cut) are specific to the pattern and the order of the stages.", "anchors": ["src/pre_tokenizer.cpp: PreTokenizedString::split", "src/pre_tokenizer.cpp: SequencePreTokenizer::pre_tokenize", "src/pre_tokenizer.cpp: SplitPreTokenizer::pre_tokenize", "src/pre_tokenizer.cpp: ByteLevelPreTokenizer::pre_tokenize", "src/tokenizer.cpp: Tokenizer::encode"]}
{"id": "C96", "title": "When the int arithmetic of truncation and padding overflows", "statement": "Truncating an encoding (of fewer than 2^31 tokens) runs into signed overflow, which is undefined behaviour, exactly when truncation takes place and max_length - stride is not an int, or the direction is left and the stride is at least max_length (the loop then walks up until the position overflows), or the direction is right and the beginning of the window after one that begins within the text, or the end of the first window that reaches the end of the text, is not an int; otherwise it computes what unbounded integers would. Padding overflows exactly when pad_to_multiple_of is positive and no multiple of it between the wanted length and 2^31 - 1 exists. A negative fixed size is refused with an exception, except when its distance from the number of tokens is not an int: then the size_t difference wraps around and the encoding is padded to more than 2^31 tokens. With a non-negative stride (below max_length if the direction is left) and sizes from 0 up to 2^30, encode as a whole never overflows.", "quantifier": "all encodings, truncation and padding parameters that are ints, tokenizers and texts", "why_tests_cant": "Overflow happens for particular combinations of three 32-bit parameters and the number of tokens, partly after 2^31 loop iterations; tests sample a few small values.", "anchors": ["src/utils.cpp: truncate", "src/utils.cpp: truncate_encoding", "src/utils.cpp: pad", "src/utils.cpp: pad_encoding", "src/tokenizer.cpp: Tokenizer::do_post_process"]}
{"id": "C97", "title": "Adding tokens overflows the id counter only when the largest int is already an id", "statement": "If all ids in use are at most M and M plus the number of tokens added is below 2^31 (and the vocabulary has at most M+1 entries), adding the tokens involves no signed overflow and gives the result of unbounded integers. Adding a single non-empty token overflows exactly when its text is neither an added token nor in the vocabulary and 2^31 - 1 is the id of an added token.", "quantifier": "all tokenizers, lists of added tokens and bounds M", "why_tests_cant": "The failing state needs an id equal to INT_MAX among the added tokens, which depends on the vocabulary file and the whole history of additions.", "anchors": ["src/added_vocabulary.cpp: AddedVocabulary::add_tokens", "src/tokenizer.cpp: Tokenizer::add_tokens"]}
{"id": "C98", "title": "Every call ends, except for one known truncation loop", "statement": "tokenizer->encode(text) ends (with a result, an exception or undefined behaviour, always the same one) unless the tokenizer truncates, the text has more tokens than max_length > 0, the strategy is LongestFirst or OnlyFirst, and either the direction is Right with stride = max_length or Left with max_length - stride <= 1; in exactly these cases it never returns. decode and add_tokens / add_special_tokens always end. Assumed of the libraries: std::wregex_iterator moves forward, ICU maps Unicode scalar values to scalar values, std::priority_queue keeps its contract.", "quantifier": "all tokenizers (any normalizer, pre-tokenizer, post-processor; WordPiece or constructor-built BPE with any reachable cache), all texts, with fewer than 2^31 tokens", "why_tests_cant": "Termination is about runs without bound; a test only shows that the runs it tried came back.", "anchors": ["src/tokenizer.cpp: Tokenizer::encode", "src/tokenizer.cpp: Tokenizer::decode", "src/tokenizer.cpp: Tokenizer::add_tokens", "src/utils.cpp: truncate", "src/normalizer.cpp: Replace::normalize", "src/model.cpp: BPE::tokenize"], "intended": "no loop at all"}
{"id": "C99", "title": "The exceptions and the kinds of undefined behaviour of each call", "statement": "encode throws only: range_error if the text has a code point that is not a Unicode scalar value or a configured Prepend / Replace string is not UTF-8; runtime_error if ICU normalization fails under a configured form or Bert normalizer; regex_error if a configured Replace pattern does not compile; length_error if padding is Fixed with a negative length; out_of_range if an added token known to the model is configured, or the text is empty and a ByteLevel pre-tokenizer adds a prefix space, or char is signed and a ByteLevel pre-tokenizer is configured. Undefined behaviour in encode is one of: a null matcher because a Split pattern does not compile, an iterator invalidated by a Replace whose content is not one character (or that reallocates), an index out of range. decode throws only bad_optional_access and is undefined only if the vocabulary, model or decoder is missing. add_tokens never throws, and is undefined only if the model or vocabulary is missing, the model's vocabulary is empty, or the vocabulary's own list is passed.", "quantifier": "all tokenizers (any normalizer, pre-tokenizer, post-processor; WordPiece or constructor-built BPE with any reachable cache), all texts, ids and token lists", "why_tests_cant": "The claim is that no other exception is possible; tests can only exhibit some.", "anchors": ["src/tokenizer.cpp: Tokenizer::encode", "src/tokenizer.cpp: Tokenizer::decode", "src/tokenizer.cpp: Tokenizer::add_tokens", "src/added_vocabulary.cpp: AddedVocabulary::extract_and_normalize", "src/normalizer.cpp", "src/pre_tokenizer.cpp", "src/utils.cpp: pad"]}
{"id": "C100", "title": "Truncation, post-processing and padding fail in exactly three ways", "statement": "When the text tokenizes to n tokens (encode of the same tokenizer without truncation, post-processor and padding returns n tokens), encode of the full tokenizer has one of four outcomes, decided by the configuration and n: it never returns iff truncation is active (max_length > 0, n > max_length, strategy LongestFirst or OnlyFirst) and stride = max_length (Right) or max_length - stride <= 1 (Left); it is undefined (reads window 0 of an empty list) iff truncation is active and the direction is neither Left nor Right; otherwise it throws length_error iff padding is Fixed with a negative length and a known direction; otherwise it returns an encoding. In particular a WordPiece tokenizer with a cutting pre-tokenizer, a normalizer that works in place, a known truncation direction, a stride other than max_length (Right) or below max_length - 1 (Left), and no negative Fixed pad length returns an encoding for every non-empty valid text, whatever its post-processor; the same BPE tokenizer does so exactly for the texts all of whose words have something in the vocabulary, and is undefined on the others.", "quantifier": "all tokenizers with int parameters and special tokens with as many ids as names, all texts that tokenize, with fewer than 2^31 tokens before and after post-processing", "why_tests_cant": "The claim is that no other failure exists, for every configuration and text length.", "anchors": ["src/tokenizer.cpp: Tokenizer::encode", "src/tokenizer.cpp: Tokenizer::do_post_process", "src/utils.cpp: Truncation::truncate_encoding", "src/utils.cpp: Padding::pad_encoding", "src/post_processor.cpp"], "intended": "always returns an encoding"}
{"id": "C101", "title": "When BPE results are the same on every C++ library", "statement": "std::priority_queue may return any of several entries of equal rank. A word whose highest-ranked applicable merge is, after whatever merges, possible at one place only is tokenized alike by every conforming queue and after every history (without dropout, when different pairs of the merge table give different ids); so is a whole text all of whose words are such, with any truncation, post-processing and padding. In a constructor-built model without prefix and suffix and with unique ids, every word of known bytes none of which is repeated is such a word. In general the result depends on the library: with the merge \"a a\", \"aaa\" becomes aa|a or a|aa; with \"a b\", \"ab a\", \"abab\" becomes aba|b or ab|ab.", "quantifier": "all pairs of conforming priority queues, all BPE models, caches reachable by any history, words and texts", "why_tests_cant": "A test runs on one library; the claim compares all conforming ones.", "anchors": ["src/model.cpp: Word::merge_all", "include/tokenizers/model.h: Merge::operator<", "src/model.cpp: BPE::tokenize", "src/tokenizer.cpp: Tokenizer::encode"], "intended": "the result never depends on the library"}
{"id": "C102", "title": "What the BPE cache holds, and that it grows without bound", "statement": "Without dropout, after any history of encode calls the cache has one entry per word that was merged in some call before that call ended (words emitted whole by ignore_merges are not stored), no other entry, never two for a word, and the entry is the result of merging the word. No entry is ever removed: after encoding k different words it has k entries, for every k.", "quantifier": "all BPE models, histories of calls (successful or not), words and texts", "why_tests_cant": "Growth over unbounded histories.", "anchors": ["src/model.cpp: BPE::tokenize_with_cache", "src/model.cpp: BPE::tokenize", "src/tokenizer.cpp: Tokenizer::encode"], "intended": "bounded memory"}
{"id": "C103", "title": "Offsets after an accented letter in an accent-stripping tokenizer", "statement": "An uncased BERT tokenizer (BertNormalizer with strip_accents or lowercase, WordPiece, any cutting pre-tokenizer, no added token in the text) encodes a basic-plane text whose letters decompose into at most two characters word by word over the stripped text, but a word that starts at position j of the stripped text is reported at the character holding byte number b, where b counts the UTF-8 bytes of the unchanged characters before j and one byte for each kept part of a decomposed letter. The reported position is never to the right of the character the word really starts with, and is that character if and only if no earlier character lost bytes; every accented letter whose accent is stripped loses some. So all offsets after the first accented letter point too far left: in \"é a\" the word \"a\" is reported at (1,2) instead of (2,3).", "quantifier": "all such tokenizers, all texts whose NFD consists of simple pieces, all pre-tokenizers that cut", "why_tests_cant": "The drift depends on the whole text before a word, of any length.", "anchors": ["src/normalizer.cpp: BertNormalizer::do_strip_accents", "src/normalizer.cpp: NormalizedString::transform_range", "src/added_vocabulary.cpp: AddedVocabulary::extract_and_normalize", "src/tokenizer.cpp: into_encoding"], "intended": "offsets index the original text"}
{"id": "C104", "title": "Offsets of BERT tokenizers on Chinese and other text", "statement": "For every combination of the BertNormalizer flags, a BERT tokenizer (WordPiece, any cutting pre-tokenizer, no added token, nothing for clean_text to delete) encodes a non-empty basic-plane text word by word over its normalization: white space to spaces, a space on both sides of every CJK ideograph, accents stripped, lower case. A word at position j of the normalization is reported at the source of the character that holds the byte counted up to j. For a cased tokenizer this is exactly the character of the text the word starts with, whatever padding was inserted before it; for an uncased one it is never to the right of that character, and it is that character when no letter before it lost bytes (in particular in Chinese text without accents).", "quantifier": "all flag combinations, WordPiece models, pre-tokenizers that cut, and basic-plane texts", "why_tests_cant": "Ranges over all texts, mixtures of scripts and flag combinations.", "anchors": ["src/normalizer.cpp: BertNormalizer::normalize", "src/normalizer.cpp: BertNormalizer::do_handle_chinese_chars", "src/normalizer.cpp: NormalizedString::transform", "src/normalizer.cpp: NormalizedString::transform_range", "src/added_vocabulary.cpp: AddedVocabulary::extract_and_normalize", "src/tokenizer.cpp: into_encoding"], "intended": "offsets index the original text"}
{"id": "C105", "title": "A text that normalizes to nothing", "statement": "When the normalizer leaves nothing of a non-empty text without added tokens (a BERT tokenizer on a text of accents only, or on a lone NUL, U+FFFD or control character), encode does not return an empty encoding: the un-normalized text is pre-tokenized instead, and if it has any word, encode reads outside the alignment table (undefined behaviour). Only if the pre-tokenizer finds no word in the original text is the encoding empty.", "quantifier": "all WordPiece tokenizers, pre-tokenizers, and texts whose normalization is empty", "why_tests_cant": "Undefined behaviour is not a reportable test outcome, and the claim ranges over all such texts.", "anchors": ["src/added_vocabulary.cpp: AddedVocabulary::extract_and_normalize", "src/tokenizer.cpp: into_encoding", "src/normalizer.cpp: BertNormalizer::normalize"], "intended": "a text that normalizes to nothing is encoded as no token"}
{"id": "C106", "title": "Llama-style tokenizers: when a text can be encoded, and what decoding gives", "statement": "A Llama-style tokenizer (normalizer: a one-character mark before the text and every space replaced by a one-character mark; no pre-tokenizer; a BPE model) encodes a text without added tokens as the one word mark+text, exactly when something of it is in the vocabulary and every space has room: the number-j space (counting from 0) at character p needs p+j to be inside the text. For text of the basic plane this means: there are at most as many spaces before the last one as characters after it. Otherwise, so for example on any sentence whose last word is shorter than its number of spaces minus one, encode is undefined behaviour. Offsets count the bytes of the marked text and run past the end of the text. decode with Replace, ByteFallback, Fuse or Strip among the decoders returns the empty string for all ids.", "quantifier": "all texts, marks, BPE vocabularies, merges and caches", "why_tests_cant": "The failing condition depends on the position of every space in an arbitrary text and is undefined behaviour.", "anchors": ["src/normalizer.cpp: Prepend::normalize", "src/normalizer.cpp: Replace::normalize", "src/normalizer.cpp: NormalizedString::transform", "src/added_vocabulary.cpp: AddedVocabulary::extract_and_normalize", "src/model.cpp: BPE::tokenize", "src/decoder.cpp"], "intended": "every text is encoded, and decode restores it"}
{"id": "C107", "title": "A BPE model emits only plain ASCII vocabulary entries", "statement": "With a vocabulary of UTF-8 texts with distinct ids (as any configuration file gives) and ASCII affixes and unknown token, every token a BPE tokenizer produces, for every text and with any normalizer, pre-tokenizer and added tokens, is plain ASCII: an entry with a non-ASCII character (an accented letter, a Chinese character, the mark of Llama, the space letter of GPT-2), even one the merges would produce, is never emitted, because words are cut into bytes before the merges. The only exception is a model with ignore_merges, for a word that is itself a vocabulary text.", "quantifier": "all vocabularies, merges, words, texts, caches and pipelines with a BPE model", "why_tests_cant": "Ranges over all texts and vocabularies; a test can only show one missing token.", "anchors": ["src/model.cpp: BPE::merge_word", "src/model.cpp: BPE::tokenize", "src/model.cpp: BPE::BPE"], "intended": "an entry of the vocabulary that the merges produce from the characters of the text is emitted"}
{"id": "C108", "title": "What encode returns, decode accepts", "statement": "Every position of an encoding (and of its overflowing encodings) that comes from the text carries the text and id of an entry of the model's vocabulary; the only exception is WordPiece with an unknown token missing from its vocabulary, which gets id 0. decode returns a text if and only if every id given stands for an added token or a vocabulary entry, and throws bad_optional_access otherwise. Hence the ids of every encoding and overflowing encoding can be decoded, by the same tokenizer or after any further additions of tokens, with and without skipping special tokens, provided the ids in the template (if special tokens are added) and of the padding stand for something; with a padding id outside the vocabulary, decoding a padded encoding throws.", "quantifier": "all tokenizers with a model, texts, truncation, padding and template settings, additions of tokens, id lists", "why_tests_cant": "Ranges over all texts, vocabularies and histories of additions.", "anchors": ["src/tokenizer.cpp: Tokenizer::encode, Tokenizer::decode", "src/model.cpp: WordPiece::tokenize, BPE::tokenize, Model::id_to_token", "src/added_vocabulary.cpp: AddedVocabulary::id_to_token"], "intended": "decode never fails on ids that encode returned"}
{"id": "C109", "title": "What encode returns, position by position, end to end", "statement": "For every tokenizer and text, the positions of encode's result (id, type id, token, word, offsets, masks) are exactly those of the text alone, first cut to the first (Right) or last (Left) max_length positions when truncation is active, then run through the post-processor (a template gives its special tokens and the text with the type id of the latest piece A; ByteLevel trims offsets; Sequence composes), then padded on the configured side up to the fixed or current length rounded up to the multiple. Without offset trimming this determines the result uniquely. Hence a BERT tokenizer with sane options (a known truncation direction, a stride other than max_length (Right) or below max_length - 1 (Left), no negative Fixed pad length) always returns, for a non-empty text with no added token normalized in place, the greedy reference tokens of the normalized text finished in this way: with the usual template, [CLS], the kept tokens, [SEP], then pad tokens; a BPE tokenizer likewise when every word has something in the vocabulary.", "quantifier": "all texts, vocabularies, truncation and padding settings, templates and post-processor sequences, add_special_tokens", "why_tests_cant": "Ranges over all texts and all combinations of options.", "anchors": ["src/tokenizer.cpp: Tokenizer::encode, Tokenizer::do_post_process", "src/utils.cpp: Truncation::truncate_encoding, Padding::pad_encoding", "src/post_processor.cpp: TemplateProcessing::process, ByteLevelProcessing::process, SequenceProcessing::process"]}
{"id": "C110", "title": "Characters deleted by clean_text leave no trace, not even in the offsets", "statement": "For a WordPiece tokenizer with a BERT normalizer that cleans the text, encoding a text from which characters are deleted gives exactly the encoding of the cleaned text, through truncation, post-processing and padding, whenever clean_text gets through it (at most one deletion in a text of the basic plane, or an ASCII text whose deletions stay within the shrinking tables) and the other steps find nothing to do but lower-casing. The offsets therefore index the cleaned text: every word is reported as many characters too far to the left as were deleted before it, and at its true position exactly when nothing before it was deleted. When clean_text does not get through, encode reads out of bounds whatever the rest of the tokenizer.", "quantifier": "all WordPiece tokenizers with a cleaning BERT normalizer, texts and deletions", "why_tests_cant": "it must hold for every text, every set of deleted positions and every pre-tokenizer; the tables go through two index re-basings whose effect depends on all positions", "anchors": ["src/normalizer.cpp: BertNormalizer::do_clean_text, NormalizedString::transform, NormalizedString::transform_range", "src/added_vocabulary.cpp: AddedVocabulary::extract_and_normalize", "src/tokenizer.cpp: into_encoding"], "intended": "Offsets point at the place of the token in the text given to encode."}
{"id": "C111", "title": "A normalizer that works in place leaves no trace in the encoding", "statement": "Take a tokenizer whose normalizer rewrites the text without inserting or moving characters: Strip, StripAccents, a Unicode form on text already in that form, BertNormalizer when it has nothing to delete, to pad or to strip, or a Sequence of such normalizers. If it turns two texts of valid characters into the same non-empty text, no added token is matched in them, and the normalized text is not longer than either (in UTF-16 units), then encode gives the same result for both (ids, tokens, offsets, word ids, masks, overflow, or the same exception), whatever the model, truncation, post-processing and padding, for pre-tokenizers that keep characters. So with Strip the white space around a text and with StripAccents every combining mark of it leave no trace, and the offsets index the normalized text: in a text with leading white space each word stands further right than its offset by exactly the white space stripped.", "quantifier": "every tokenizer with such a normalizer and a pre-tokenizer that keeps characters, every pair of texts with the same normalized text, every environment, add_special_tokens on or off", "why_tests_cant": "It relates all pairs of texts that differ in what the normalizer removes, for every model and every later stage.", "anchors": ["src/normalizer.cpp: Strip::normalize, StripAccents::normalize, BertNormalizer::normalize, Sequence::normalize", "src/tokenizer.cpp: Tokenizer::encode, PreTokenizedString::into_encoding"], "intended": "Offsets index the original text, so stripped white space and marks shift them; the code does not update the alignment table in Strip and StripAccents."}
{"id": "C112", "title": "From a configuration file to encodings, after any use of the tokenizer", "statement": "Constructing a tokenizer from a tokenizer.json that describes a BERT tokenizer (BertNormalizer, BertPreTokenizer, WordPiece with ids 0..size-1, special added tokens, any template, truncation that cannot loop, padding that is not negative) succeeds. After any history of encode, decode, add_tokens and add_special_tokens calls, whatever their outcome, encode of a non-empty printable ASCII text returns exactly the reference: the added tokens of the configuration and of the calls that are in the vocabulary are recognised field by field, the rest is case-folded as configured, split at white space and punctuation and segmented greedily; then the truncation, template and padding of the configuration are applied, position by position. And for every configuration with special added tokens, WordPiece or BPE, whose template and padding ids are in the vocabulary: whatever encode returns at some time (for any text, overflowing parts included) can be decoded at any later time, with or without special tokens.", "quantifier": "all configurations of that kind, all vocabularies, templates, truncation and padding settings, all histories of calls, all non-empty printable ASCII texts (all texts for the decoding part)", "why_tests_cant": "It ranges over all configurations, all call histories and all texts at once.", "anchors": ["src/tokenizer.cpp: Tokenizer::Tokenizer, encode, decode, add_tokens", "src/added_vocabulary.cpp: add_tokens, extract_and_normalize", "src/model.cpp: WordPiece::tokenize", "src/post_processor.cpp: TemplateProcessing::process", "src/utils.cpp: truncate_encoding, pad_encoding"]}
{"id": "C113", "title": "In a configuration, null means the default value, and for strip_accents: as lowercase says", "statement": "A key of the truncation, padding, normalizer, pre-tokenizer, model, decoder or post-processor section whose value is null is read exactly as if it held the empty string, false, 0, an empty list, an empty object, an empty pattern or no strategy, whichever its kind calls for, at any depth of sequences. So two configurations that differ only in nulls spelled out this way and in keys the format does not know give the same tokenizer, or are both rejected alike. For BertNormalizer, strip_accents null means that accents are stripped exactly if lowercase is true. With lowercase true, strip_accents false is ignored: every text is encoded as with strip_accents true.", "quantifier": "all pairs of configurations, all components and their keys, all nesting depths of sequences, all environments and all texts", "why_tests_cant": "there are dozens of nullable keys, in any combination and at any depth; a test fixes one configuration file", "anchors": ["src/tokenizer.cpp: Tokenizer::Tokenizer", "src/normalizer.cpp: with_normalizer, BertNormalizer::normalize", "src/pre_tokenizer.cpp: with_pre_tokenizer", "src/post_processor.cpp: with_post_processor", "src/decoder.cpp: with_decoder", "src/model.cpp: with_model", "src/utils.cpp: with_truncation, with_padding"], "intended": "With lowercase true, strip_accents false should be honoured (refuted by C113_strip_accents_refuted); the rest is as intended."}
{"id": "C114", "title": "The spelling of strings in a configuration does not matter", "statement": "A string value of the configuration is read as the text it stands for by RFC 8259 (short escapes, \\uXXXX with digits in either case, surrogate pairs), whatever spelling was used, and a string that stands for no text (unknown escape, unpaired surrogate) is an error where it is read. Two configurations that differ only in how string values (not object keys) are spelled give the same tokenizer or the same rejection, and any spelling of the documented form of a configuration gives the tokenizer it describes.", "quantifier": "all strings, all documents, all spellings of any of their string values at any depth", "why_tests_cant": "a string has exponentially many spellings, and every string of the document can be respelled", "anchors": ["src/model.cpp: with_model", "src/normalizer.cpp: with_normalizer", "src/pre_tokenizer.cpp: with_pre_tokenizer", "src/decoder.cpp: with_decoder", "src/post_processor.cpp: with_post_processor", "src/utils.cpp: with_truncation, with_padding", "src/added_vocabulary.cpp: with_added_vocabulary"]}
{"id": "C115", "title": "What the example program prints, and what its output tells", "statement": "The command-line program ends normally exactly if the tokenizer can be built from its first argument, its second argument is well-formed UTF-8, and encoding (with special tokens) and decoding (without them) succeed; it then prints the text, the decimal numerals of the ids, type ids, words, offsets and attention mask, the quoted tokens, and the decoded text. If a step fails it ends with that step's exception; the columns have been printed only if it was decoding that failed. When the texts and tokens contain no newline, equal outputs mean equal texts, ids, type ids, words, offsets, attention masks and decoded texts. For equal results the output equals that of the reference script if no token contains a backslash, or a single quote among other characters; a token is printed as Python prints it exactly under that condition.", "quantifier": "all arguments, files, environments, encodings and pairs of runs", "why_tests_cant": "the claim that outputs determine results is about all pairs of runs", "anchors": ["examples/run/run.cpp: print_result, main", "scripts/compare_outputs/run.py", "scripts/compare_outputs/run.sh"], "intended": "The comparison script should report a difference only if the results differ (refuted by C115_identical_refuted: the token don't)."}
{"id": "C116", "title": "Merge rules are the two white-space separated parts of each line", "statement": "A BPE merge rule is read from an arbitrary line of text: its first two parts separated by ASCII white space (tab, line feed, vertical tab, form feed, carriage return, space) name the pair, the rest of the line is ignored, and a line with fewer than two parts, or with a part or a joined text outside the vocabulary, defines nothing but still counts for the ranks of the following lines. The pair of ids (x, y) merges with rank r into n exactly when line r is the first line that defines the pair. Two lists of lines with the same parts give the same model. Building the model fails (out of range) exactly when some line names two vocabulary entries the second of which is shorter than the continuing-subword prefix.", "quantifier": "all vocabularies, all lists of byte strings as merge lines, all prefixes and options", "why_tests_cant": "merge lines are arbitrary byte strings and the table is determined by all lines together", "anchors": ["src/model.cpp: BPE::BPE"]}
{"id": "C117", "title": "What the objects of added_tokens mean", "statement": "An object of added_tokens denotes exactly one token: every key may be missing (id 0, empty content, not single_word, not lstrip, not rstrip, normalized, not special), the keys may stand in any order, of a repeated key the last value counts, other keys are ignored, the content has its escapes resolved and the id is a 64-bit integer narrowed to 32 bits. The added tokens of the tokenizer are the tokens denoted, in the order listed; two configurations that differ only in how their added tokens are written construct the same tokenizer.", "quantifier": "all JSON objects with well-typed keys, all lists of them, all configurations around them", "why_tests_cant": "objects with arbitrary keys in arbitrary order and number", "anchors": ["src/added_vocabulary.cpp: with_added_vocabulary", "include/tokenizers/added_vocabulary.h: AddedToken"]}
{"id": "C118", "title": "The text conversions are standard UTF-8 and UTF-16", "statement": "convert_to_string(s) returns b exactly when b is the UTF-8 spelling of s by the bit-pattern table of RFC 3629 (shortest form, no surrogates, nothing above U+10FFFF), convert_from_string(b) returns s in exactly the same cases, and both throw std::range_error otherwise; a spelling determines its text and conversely. The UTF-16 form used inside the normalizers, pre-tokenizers and models is the RFC 2781 spelling of the same text whether it is made from the wide string or from the UTF-8 bytes, converts back to exactly those bytes, and has two units for every character above U+FFFF and one for every other. Bytes that are not UTF-8 (such as a piece cut inside a character) are read inside the library as exactly one text, the one the Unicode Standard prescribes (chapter 3.9): every maximal subpart of an ill-formed sequence becomes one U+FFFD; a UTF-16 string that was cut inside a pair reads each lone surrogate as U+FFFD and is written as the UTF-8 spelling of that text.", "quantifier": "all wide strings, all byte strings and all strings of 16-bit units", "why_tests_cant": "ranges over every string; the boundaries (overlong forms, surrogates, the last plane) are exactly where samples are missing", "anchors": ["src/common.cpp: convert_to_string, convert_from_string", "src/normalizer.cpp: NormalizedString", "src/model.cpp: WordPiece::tokenize"]}
{"id": "C119", "title": "A BPE tokenizer emits only what the merges can make; special tokens written in the text are no exception", "statement": "Without ignore_merges and with distinct ids, whatever the text, normalizer, pre-tokenizer and added tokens: every position of encode's result and of its overflowing parts that is neither a special token of the template nor padding shows a vocabulary entry that is a single byte (with the affixes), the unknown token, a byte-fallback token, or made from two such entries by a line of the merge list. So an added token such as <|endoftext|> that is no such entry never comes out of a text, even though it is recognised in it and has an id in the vocabulary: it is emitted letter by letter (a WordPiece tokenizer emits it whole, C89).", "quantifier": "all vocabularies, merge lists, dropout values, cache histories, texts, pipelines and added tokens", "why_tests_cant": "Says that an id is absent from the encodings of all texts.", "anchors": ["src/model.cpp: BPE::tokenize", "src/model.cpp: BPE::merge_word", "src/model.cpp: Word::merge_all", "src/tokenizer.cpp: Tokenizer::encode", "src/added_vocabulary.cpp: AddedVocabulary::extract_and_normalize"], "intended": "an added token in the text is emitted as that token"}
{"id": "C120", "title": "The mask-filling example fills in the first masked position", "statement": "The program examples/libtorch-bert succeeds exactly if the network loads, the tokenizer is built, the text is UTF-8, encode and the network succeed and the winning id decodes; it then prints the network's name and the decoding of the first id with the greatest score at the position of the first id 103, or, if the encoding has no id 103, at the last position (so a text without a mask is answered with the prediction for the closing special token or padding). Ids and attention mask passed to the network have one entry per position, and if template and padding do not use id 103 the position is one of the text, with attention 1, that shows the vocabulary entry with id 103.", "quantifier": "all networks, configurations, texts and command lines", "why_tests_cant": "Ranges over all networks and texts; the case without a mask silently uses a negative tensor index.", "anchors": ["examples/libtorch-bert/mobilebert-uncased.cpp: main", "src/tokenizer.cpp: Tokenizer::encode", "src/tokenizer.cpp: Tokenizer::decode"]}
{"id": "C121", "title": "Added tokens in BPE and byte-level text", "statement": "For a BPE or WordPiece tokenizer with any normalizer that works letter by letter on printable ASCII (none, NFC/NFD/NFKC/NFKD, Bert, sequences of these) and any pre-tokenizer (none, Bert, Split, ByteLevel without prefix space, sequences), a printable ASCII text in which added tokens occur is encoded as follows: the tokens with normalized = false are found in the text, field by field; the stretches between them, spaces included, are normalized; in each the tokens with normalized = true are found; every token found is a word of its own, and the stretches between are cut by the pre-tokenizer. The rows are the tokens of these words in turn with offsets from the positions of the words. A BPE encode reads outside an empty word exactly when some word (an added token included) has nothing in the vocabulary; otherwise it succeeds. This holds from the configuration file on, after every history of calls, and truncation, template and padding are applied to these rows.", "quantifier": "every BPE or WordPiece model, vocabulary, list of added tokens, history of calls, normalizer and pre-tokenizer of the kinds named, platform signedness of char, and every non-empty printable ASCII text", "why_tests_cant": "The added tokens interact with the positions of spaces, the normalizer, the byte remapping, the regex cuts and the merges; no finite set of texts covers the combinations.", "anchors": ["src/added_vocabulary.cpp: AddedVocabulary::extract_and_normalize, find_matches", "src/pre_tokenizer.cpp: ByteLevelPreTokenizer::pre_tokenize, PreTokenizedString::split", "src/model.cpp: BPE::tokenize, WordPiece::tokenize", "src/tokenizer.cpp: Tokenizer::encode"]}
{"id": "C122", "title": "Tokenizers with ByteLevel add_prefix_space (RoBERTa style), end to end", "statement": "Let the pre-tokenizer be ByteLevel with add_prefix_space, or a Sequence beginning with it. encode of a text that does not begin with white space gives the tokens of the words of the given text with a space put in front: the words and tokens are determined by the text, the pre-tokenizer and the model alone, for a WordPiece model always and for a BPE model exactly when every word has something in the vocabulary (otherwise encode reads outside an empty word). The words are numbered in order and reported one position to the left of where they stand in the text with the space, except that the first word (which contains the space) is reported at 0, so its spans are one too far to the right; a word cut past the end of the text is undefined behaviour, which does not occur with ByteLevel alone. Neither the normalizer nor added tokens in the text have any effect: encode gives what the tokenizer without them gives. On a text that begins with white space encode gives what the same tokenizer with add_prefix_space = false gives.", "quantifier": "every tokenizer whose pre-tokenizer begins with ByteLevel(add_prefix_space), every non-empty well-formed text normalized in place or printable ASCII with simple added tokens, every WordPiece or BPE model, every reachable BPE cache, truncation, post-processing and padding", "why_tests_cant": "Tests compare a few texts; that normalizer and added tokens never matter and where every word is reported has to hold for all texts, vocabularies and configurations.", "anchors": ["src/pre_tokenizer.cpp: ByteLevelPreTokenizer::pre_tokenize", "src/tokenizer.cpp: Tokenizer::encode, into_encoding", "src/normalizer.cpp: NormalizedString::transform"]}
{"id": "C123", "title": "Added tokens that do not occur in a text do not matter for it", "statement": "In every state a tokenizer can reach, adding tokens (special or not, with any flags, known to the model or not) that stand neither in a text nor in what the normalizer makes of a stretch of it changes nothing about the encoding of that text, whatever the normalizer, pre-tokenizer, model, truncation, template and padding, and whether encode succeeds or fails. So over any history of calls the encoding of a text stays what it was as long as no token added meanwhile occurs in it; and a text in which no added token occurs is encoded as by the tokenizer without any. The exception is a token with the replacement character U+FFFD: the token U+FFFD is found inside every character above U+FFFF, and such texts can then no longer be encoded (undefined behaviour).", "quantifier": "all reachable tokenizers, all texts, all lists of tokens added, all histories of calls", "why_tests_cant": "ranges over all texts and token lists; a test would have to guess the pair that interferes", "anchors": ["src/added_vocabulary.cpp: add_tokens, refresh_added_tokens, find_matches, extract_and_normalize", "src/tokenizer.cpp: Tokenizer::encode"], "intended": "Adding a token never changes the encoding of a text in which the token does not occur."}
{"id": "C124", "title": "Extending a WordPiece vocabulary changes only the texts it concerns", "statement": "Two tokenizers that differ only in their WordPiece vocabulary: (a) if every entry on which they differ (present in one only, or with different ids) stands nowhere in the text nor in what the normalizer makes of a stretch of it - neither whole nor without the continuation prefix - then encode gives the same result for that text, error outcomes included (pre-tokenizer without ByteLevel, same id for the unknown token); (b) if the second vocabulary contains the first with the same ids, and the encoding of a text under it shows no new entry and no unknown token, then the first gives the same encoding. More entries are not always better: adding the entry 'ab' to {a, ##bc} turns 'abc' from [a, ##bc] into the unknown token.", "quantifier": "all tokenizers with a WordPiece model, all pairs of vocabularies, all texts, normalizers and (for (b)) pre-tokenizers, all truncation, padding and post-processing settings, both values of add_special_tokens", "why_tests_cant": "the set of vocabularies and of texts not containing an entry is infinite, and the greedy longest match makes the effect of an entry depend on the whole word", "anchors": ["src/model.cpp: WordPiece::tokenize", "src/tokenizer.cpp: Tokenizer::encode"]}
{"id": "C125", "title": "Decoding gives the text back with canonical spacing, and encoding that again gives the same tokens", "statement": "For a WordPiece tokenizer with the Bert pre-tokenizer and a WordPiece decoder using the same continuation prefix: (a) decoding the ids of the encoding of a text gives the words of the normalized text in order - a word the vocabulary cannot segment shown as the unknown token - joined by single spaces, except that with cleanup there is no space before '.', '?', '!' and ','; (b) ids of registered special tokens vanish from decode(ids, skip_special_tokens = true) wherever they stand, so that (c) the CLS/SEP template and padding with special tokens do not change the decoded text; (d) if no word is unknown, encoding the decoded text again gives the same encoding apart from the offsets, under every truncation, padding and post-processing setting (normalizer leaving that text unchanged). Assumed: neither a word of the text nor the unknown token starts with the continuation prefix, the unknown token is an entry, no vocabulary entry splits a character of the text, and with cleanup the marks . ? ! , ' count as punctuation and do not occur in the unknown token. With an unknown word (d) fails: 'dog' encodes to [UNK], decodes to '[UNK]', which encodes to three tokens.", "quantifier": "all vocabularies with consecutive ids, all normalizers, all texts, all histories of added tokens, both values of cleanup, skip_special_tokens and add_special_tokens, all truncation, padding and template settings", "why_tests_cant": "the round trip must hold for every text and vocabulary and every set of added tokens; a test only tries some texts", "anchors": ["src/tokenizer.cpp: Tokenizer::decode, Tokenizer::encode", "src/decoder.cpp: WordPieceDecoder", "src/model.cpp: WordPiece::tokenize"]}
{"id": "C126", "title": "Extending a BPE model changes only the texts it concerns", "statement": "Two tokenizers that differ only in their BPE model (same unknown token, prefix, suffix and flags, no byte fallback; each model fresh or used before): if every vocabulary entry on which they differ, and every text that a merge rule on which they differ joins to, is - apart from the continuation prefix and the end-of-word suffix - found nowhere in the text nor in what the normalizer makes of a stretch of it, then encode gives the same result for that text, error outcomes included, with or without dropout. In particular appending merge rules with their new entries to a model changes nothing for texts that do not contain what the new rules join. Assumed: entries are UTF-8 with distinct ids, prefix and suffix are ASCII, no rule names the unknown token, no ByteLevel pre-tokenizer. Without an unknown token 'found' has to allow gaps: the characters the vocabulary does not know vanish before merging, so appending the rule 'a b' does change the encoding of 'aéb' from [a, b] to [ab] although 'ab' does not stand in it.", "quantifier": "all BPE vocabularies and merge lists, all texts, normalizers, added tokens and pre-tokenizers without ByteLevel, all queue implementations and random draws, all truncation, padding and post-processing settings, both values of add_special_tokens, all prior uses of the two models", "why_tests_cant": "which rules fire depends on the order in which all others fired; the set of rule lists and texts is infinite", "anchors": ["src/model.cpp: BPE::BPE, BPE::merge_word, Word::merge_all, BPE::tokenize", "src/tokenizer.cpp: Tokenizer::encode"]}
{"id": "C127", "title": "What the ByteLevel decoder returns for any ids", "statement": "With the ByteLevel decoder, decode returns for every list of known ids the low byte of the code point of every character of the tokens' texts, in order and with nothing in between (a character above U+FFFF gives its low byte twice, malformed UTF-8 counts as U+FFFD; skipped special tokens give nothing). ASCII texts therefore come back verbatim; a token whose text is not in the byte alphabet does not: the added token e-acute decodes to the single byte E9.", "intended": "decode of the id of an added token returns the token's text (refuted with the ByteLevel decoder for any non-ASCII text, C127_added_text_refuted).", "quantifier": "all vocabularies with ids 0..n-1, all histories of added tokens and encodings, all lists of known ids, with and without skipping special tokens, all token texts, well-formed UTF-8 or not", "why_tests_cant": "a decoder that treats some characters or some sequences differently, or that reads more than the low byte for some code points, agrees with the tests on the byte alphabet", "anchors": ["src/decoder.cpp: ByteLevelDecoder::decode_chain", "src/tokenizer.cpp: Tokenizer::decode"]}
{"id": "C128", "title": "Java tokenizer objects are independent and answer as if just constructed", "statement": "In a process that constructs Tokenizer objects from configuration strings and calls encode and decode on them in any order: every call is answered exactly as a tokenizer just constructed from that object's configuration would answer it, whatever was called before on this object or on others (so removing an encode or decode call from a program that runs through changes no other answer), and the process ends with the first call that throws or is undefined - a C++ exception never reaches the Java caller. Assumed: no vocabulary contains both a repeated id and the empty token. Native tokenizers are never released: after any calls there are as many as constructor calls.", "quantifier": "all sequences of constructor, encode and decode calls on any number of objects, all configuration strings, all Java strings and id arrays", "why_tests_cant": "the claim is about every interleaving of calls on every set of objects; state leaking between calls (the BPE cache, the added vocabulary) would show only for some history", "anchors": ["android/tokenizers_android/src/main/java/xyz/omkar/tokenizers/Tokenizer.java: Tokenizer, encode, decode", "android/tokenizers_android/src/main/cpp/tokenizers_android_jni.cpp: Java_xyz_omkar_tokenizers_Tokenizer_newTokenizer, Java_xyz_omkar_tokenizers_Tokenizer_encode, Java_xyz_omkar_tokenizers_Tokenizer_decode"]}
{"id": "C129", "title": "What the example activity shows", "statement": "The activity's configuration string is the asset's text with LF, CR or CR LF line ends replaced by LF and a final line end dropped. After start-up and any clicks, each click shows exactly 'Encoded: [ids]' and 'Decoded: text' for what a freshly constructed tokenizer encodes and decodes for the text typed, or the process has ended. Typing a character beyond U+FFFF (an emoji) anywhere ends the process; so does clicking with nothing typed when the configuration has added tokens. With a BERT configuration with ASCII vocabulary and added tokens, every sequence of clicks on non-empty printable ASCII texts is survived and each shows a screen.", "quantifier": "all asset files, all sequences of typed texts, all configurations (BERT configurations for survival)", "why_tests_cant": "survival for every typed text and every sequence of clicks is not testable by examples", "intended": "The activity should survive every input the user types; it does not (emoji, empty input).", "anchors": ["android/app/src/main/java/xyz/omkar/tokenizers/MainActivity.kt: onCreate, getTokenizerConfig", "android/tokenizers_android/src/main/cpp/tokenizers_android_jni.cpp: Java_xyz_omkar_tokenizers_Tokenizer_encode, Java_xyz_omkar_tokenizers_Tokenizer_decode"]}
{"id": "C130", "title": "How many tokens a text can have", "statement": "A word of a WordPiece model has at least one token and at most one per UTF-16 unit; a word of a BPE model at least one token and at most one per byte of its UTF-8 text (with byte fallback: per byte and affix byte). So a WordPiece tokenizer with a normalizer that works in place and a character-keeping pre-tokenizer gives a text between the number of its words and the number of its UTF-16 units of tokens; a BPE tokenizer at most one per byte, or two per byte with ByteLevel pre-tokenization (reached: four tokens for one accented letter); a BERT tokenizer with added tokens on printable ASCII at most one per character that is not a space. The number of ids returned, without padding, is at most what the post-processor makes of that bound. Hence the size conditions of C112 and C129 hold for every text whose own length, after post-processing, fits in an int.", "quantifier": "all texts, vocabularies, merge tables, normalizers working in place, pre-tokenizers, added tokens and histories", "why_tests_cant": "an upper bound over all texts and vocabularies; the memory and int limits a caller plans for depend on it", "anchors": ["src/model.cpp: WordPiece::tokenize, BPE::tokenize", "src/tokenizer.cpp: Tokenizer::encode"]}
{"id": "C131", "title": "The order, the grouping and the repetition of additions do not matter for encode", "statement": "Two histories of calls on one tokenizer whose configured and added tokens ask for the same texts with the same single_word, lstrip, rstrip and normalized settings (as far as the model's vocabulary knows the texts) leave tokenizers that encode every text alike: the tokens may have been added in any order, in any number of calls, as special or as normal tokens, any number of times, with encodings in between. Adding tokens in one call or in two calls gives exactly the same object and the same total count, unless a text is a normal token in the first list and a special one in the second; adding tokens again that were added before with the same settings changes no encoding, no decoding, no id and no special status.", "quantifier": "every dense vocabulary without an empty token, every tokenizer with any normalizer, pre-tokenizer, model and post-processor, every pair of call histories in which each text always has the same settings, every text", "why_tests_cant": "it compares all pairs of call histories on all texts; tests add a few tokens in one order", "anchors": ["src/added_vocabulary.cpp: add_tokens, refresh_added_tokens, find_matches, extract_and_normalize", "src/tokenizer.cpp: add_tokens, add_special_tokens, encode, decode"], "intended": "The exception is a defect of the object (C131_batch_refuted): a text given first as a normal token looked for in the normalized text and later as a special token looked for in the text itself is looked for in both after two calls, and only in the text itself after one."}
{"id": "C132", "title": "Tokenizers that begin with a Unicode normal form: which words come out, where they are reported, and when the process is lost", "statement": "When the normalizer is NFC, NFD, NFKC or NFKD (alone, or first in a Sequence whose other members only rewrite the text), encoding a text gives exactly the tokens of the words of the normalized text. A word at position j of that text is reported at the original unit holding byte number b, where b counts the bytes of the original units for positions where the double-paced comparison of the two texts finds no change, and two one-byte positions for every change; a word whose position has no such byte makes encode read outside the alignment table. Every position below the original length lands, never to the right of itself; positions up to the first difference are exact; positions at or beyond twice the original length never land. Under canonical decomposition into at most two characters a character's position is exact exactly when every character decomposed before it takes two bytes of UTF-8.", "quantifier": "every environment (ICU tables), every normalization form and in-place rest of a Sequence, every valid text, every pre-tokenizer, WordPiece or BPE model (after any history of the cache), truncation, padding and post-processing for the undefined case", "why_tests_cant": "the landing position depends on all characters before the word, over all texts and all normalization tables; the repository's tests only use short texts that do not drift", "anchors": ["src/normalizer.cpp: NFC::normalize, NFD::normalize, NFKC::normalize, NFKD::normalize, NormalizedString::transform, NormalizedString::transform_range", "src/added_vocabulary.cpp: extract_and_normalize", "src/tokenizer.cpp: into_encoding", "src/tokenizer.cpp: encode"], "intended": "Offsets should name the characters a token comes from. C132_place_refuted: after a composed letter NFC reports later words too far left; C132_far_case: the single character U+FDFA under NFKC makes encode read out of bounds."}
{"id": "C133", "title": "BERT normalizers on every text with nothing to delete: supplementary characters, Chinese padding and decompositions of any length", "statement": "When the normalizer is BertNormalizer (any of its four switches) and the text has no characters the clean-up deletes, encoding gives exactly the tokens of the words of the normalized text (white space made blank, Chinese characters padded, accents stripped after canonical decomposition, lower case). A word at position j is reported at the unit that holds the byte counted up to position j: one byte for every added blank and for each of the two positions replacing a changed one, the unit's own bytes otherwise, entries standing where the decomposition has marks taken out; a word with no such byte, or a mark of the decomposition standing beyond the entries, makes encode read outside the alignment table; if the normalization service is not available encode throws. A cased tokenizer encodes every such text successfully, an uncased one every such text in which nothing decomposes and no mark occurs; if moreover no character is padded, a cased tokenizer reports every word exactly at the UTF-16 unit it starts at.", "quantifier": "every environment (ICU and locale tables), all four switches, every valid text without characters to delete (any planes, any decomposition), every pre-tokenizer, WordPiece or BPE model (after any history of the cache); truncation, padding and post-processing arbitrary in the failing cases", "why_tests_cant": "the reported position depends on all characters before the word and on the decomposition table; the repository's tests only use short texts of the basic plane", "anchors": ["src/normalizer.cpp: BertNormalizer::normalize, do_clean_text, do_handle_chinese_chars, do_strip_accents, do_lowercase, NormalizedString::transform, NormalizedString::transform_range", "src/added_vocabulary.cpp: extract_and_normalize", "src/tokenizer.cpp: into_encoding", "src/tokenizer.cpp: encode"], "intended": "Offsets should name the characters a token comes from and encode should not read out of bounds. C133_place_refuted: after a Vietnamese letter (U+1EA5) the uncased tokenizer reports later words too far left; C133_marks_case: two such letters make encode read out of bounds; C133_padding_case: a Chinese character behind an emoji is reported inside the emoji."}
{"id": "C134", "title": "Cleaning BERT normalizers on texts with any number of characters to delete, of all planes", "statement": "When the normalizer is BertNormalizer with clean_text on, and no Chinese padding takes place, the outcome of encode on a text with any number of characters to delete (control characters, NUL, U+FFFD) is determined: deletion number j, of character p, takes entry p out of the entries that are left and takes out the bytes unit p + j had in the given text; if that unit or those bytes are not there any more, encode reads outside the table. Otherwise the tokens are exactly those of the words of the cleaned (and, if wanted, accent-stripped and lower-cased) text, and a word at position j is reported with the rank, among the runs of equal units left, of the byte counted up to position j. A cased tokenizer (no accent stripping, no lower case) encodes such a text successfully if and only if all deletions fit.", "quantifier": "every environment (ICU and locale tables), every valid text, any number and places of deleted characters, any planes and decompositions, every pre-tokenizer, WordPiece or BPE model (after any history of the cache)", "why_tests_cant": "whether a deletion stays inside the table depends on the widths of all characters and on the number of deletions before it; the repository's tests delete one ASCII control character", "anchors": ["src/normalizer.cpp: BertNormalizer::normalize, do_clean_text, NormalizedString::transform (erase), NormalizedString::transform_range", "src/added_vocabulary.cpp: extract_and_normalize", "src/tokenizer.cpp: into_encoding", "src/tokenizer.cpp: encode"], "intended": "Deleting characters should never read out of bounds and the words behind should be reported where they stand in the given text. C134_case and C134_bpe_case: words are reported further left for every deletion before them; C134_cased_case: two NULs at the end of a text make encode read out of bounds."}
{"id": "C135", "title": "BERT normalizers on every text: deletions, padding and decomposition together", "statement": "When the normalizer is BertNormalizer, with any of its four switches, the outcome of encode is determined for every text: after the deletions, the padding of Chinese characters starts counting bytes where the entry of the first padded character starts in the given text, and copies one byte before and behind each; then marks are stripped and lower case applied. Either this gives the normalized text, the bytes counted for each of its positions and the unit reported for each byte, and the tokens are exactly those of its words, each reported at the unit of the byte counted up to its position (an access outside the table if there is none); or a deletion, a padding or a mark has nothing to work on and encode reads outside the table; or the normalization service is not available and encode throws. There is no other case.", "quantifier": "every environment (ICU and locale tables), all four switches, every valid text, every pre-tokenizer, WordPiece or BPE model (after any history of the cache); truncation, padding and post-processing arbitrary in the failing cases", "why_tests_cant": "deletions, padding and decomposition change the same tables one after the other and the effect of each depends on all characters of the text; the repository's tests try them one at a time on short texts", "anchors": ["src/normalizer.cpp: BertNormalizer::normalize, do_clean_text, do_handle_chinese_chars, do_strip_accents, do_lowercase, NormalizedString::transform, NormalizedString::transform_range", "src/added_vocabulary.cpp: extract_and_normalize", "src/tokenizer.cpp: into_encoding", "src/tokenizer.cpp: encode"], "intended": "encode should not read out of bounds and should report words where they stand. C135_breaks_case: two NULs, a dash and a Chinese character make encode read out of bounds although each step is fine alone; C135_case: words behind a deleted character are reported too far left."}
{"id": "C136", "title": "Every outcome of encode for a configured BERT tokenizer", "statement": "Construct a tokenizer from a tokenizer.json with BertNormalizer (any switches), WordPiece or BPE with ids 0..size-1, special added tokens, any pre-tokenizer that can cut every text, truncation that cannot loop, any template and non-negative padding, and use it in any way (encode, decode, add tokens). Then encode of any non-empty text in which none of the tokens added so far stands has exactly one of four outcomes, and which one is determined by the text, the switches and the pre-tokenizer alone: the encoding whose rows are the tokens of the words, in order, each reported at the unit the normalizer's table gives for it, then truncated, post-processed and padded as configured; an access out of bounds, exactly if a deletion, a padding or a mark has nothing to work on or a word has no place in the table (for BPE also: a word nothing of which is in the vocabulary); std::runtime_error if the normalization service is not available; std::range_error if the normalized text is not valid Unicode. The words are those of the normalized text, or of the text itself if nothing is left of it. The conditions exclude each other.", "quantifier": "all configurations of that kind, all environments (ICU and locale tables), all histories of calls, all non-empty valid texts in which no added token stands", "why_tests_cant": "all texts, configurations and histories; a test shows one outcome of one text", "anchors": ["src/tokenizer.cpp: Tokenizer::Tokenizer, Tokenizer::encode, into_encoding", "src/normalizer.cpp: BertNormalizer::normalize, NormalizedString::transform_range", "src/added_vocabulary.cpp: AddedVocabulary::extract_and_normalize", "src/utils.cpp: truncate_encoding, pad_encoding"], "intended": "The only outcome should be the encoding, with the words reported where they stand. C136_bad_cases and C136_nothing_left_case show the others: two Vietnamese letters or a lone accent make encode read out of bounds, and a lone variation selector is encoded although the normalizer removed it."}
{"id": "C137", "title": "The words of a text with special tokens, accents and Chinese characters, whatever the normalizer", "statement": "Construct a tokenizer from a tokenizer.json with any normalizer, any pre-tokenizer that can cut every text, WordPiece or BPE with ids 0..size-1, special added tokens, truncation that cannot loop, any template and non-negative padding, and use it in any way (encode, decode, add tokens). As long as all added tokens are printable ASCII without strip or whole-word flags, encode of any non-empty text of the basic plane either returns no encoding at all, or an encoding whose rows are, word by word, the tokens of exactly these words: the tokens with normalized = false are found in the text, field by field and shortest first; each stretch between them is normalized; the tokens with normalized = true are found in the result; the stretches between these are cut by the pre-tokenizer; every found token is a word. Only when the stretch is the whole text and nothing is left of it, the text itself is cut. Ids, tokens, word numbers and the spans inside each word are those of the words; where a word is reported to start is not claimed. The rows are then truncated, post-processed and padded as configured. The words are determined by the text, the tokens and the configuration.", "quantifier": "all configurations of that kind, all environments, all histories of calls, all non-empty texts of the basic plane whose normalized stretches stay in the basic plane", "why_tests_cant": "all texts, configurations and histories, and all positions of added tokens in the text", "anchors": ["src/tokenizer.cpp: Tokenizer::Tokenizer, Tokenizer::encode, into_encoding", "src/added_vocabulary.cpp: AddedVocabulary::extract_and_normalize, AddedVocabulary::find_matches", "src/pre_tokenizer.cpp: PreTokenizedString::split"], "intended": "The same should hold for every text. C137_emoji_case: after a character outside the basic plane a special token is not recognised, because positions counted in UTF-16 units are used to cut the text."}
{"id": "C138", "title": "How much work encode does", "statement": "WordPiece makes at most n(n+1)/2 + 1 vocabulary look-ups for a word of n UTF-16 units, and exactly one if n exceeds max_input_chars_per_word; so with a normalizer that works in place and a character-keeping pre-tokenizer, a text of N units takes at most N(max+1)/2 look-ups plus one per word: linear in the text for a fixed limit. Without such a limit it is not: a word of n letters in a vocabulary of single letters takes exactly n(n+1)/2. BPE takes, for a word with k initial symbols and no dropout, at most 3(k-1) elements from its queue and searches the merge table at most 6(k-1) times (with dropout both stay quadratic), and k is at most the number of bytes times the symbols per byte. But every word that is merged costs a copy of the whole merge table: without dropout encode copies it exactly once for every distinct word of the text that is not cached, with dropout once for every word. The search for added tokens copies at most (N+1)L units if no stretch without a space is longer than L, never more than N(N+1)/2, and exactly N(N+1)/2 for a text without spaces in which no added token stands, even if no token was added.", "quantifier": "all vocabularies, limits, merge tables, dropout rates, priority queues, words, texts, caches reached by any history", "why_tests_cant": "a test measures the time of the texts it has; a bound must hold for the worst text of every length, and the worst text depends on the vocabulary, the cache and the added tokens", "intended": "Work linear in the text. C138_wordpiece_worst and C138_search refute it for long words and for texts without spaces; C138_bpe_copies shows the copy of the merge table per word.", "anchors": ["src/model.cpp: WordPiece::tokenize, Word::merge_all, BPE::merge_word, BPE::tokenize_with_cache, BPE::tokenize", "src/added_vocabulary.cpp: AddedVocabulary::find_matches"]}
{"id": "C139", "title": "Words, rows and positions of texts with added tokens that are normalized in place", "statement": "For a tokenizer constructed from a configuration with special added tokens of printable ASCII characters, WordPiece or BPE and any pre-tokenizer that cuts without a prefix space, at any time after construction: on any text of the basic plane in which added tokens may occur anywhere and each of whose stretches is normalized in place (the BERT normalizer with nothing to remove, no ideograph to space and nothing to decompose; a normalization form of text that is already in it; Strip; StripAccents; sequences of these) the words of the text and their positions exist and are determined by the text: tokens with normalized = false are found in the text and divide it, each stretch between them is normalized, tokens with normalized = true are found in the result and the rest is cut by the pre-tokenizer; the pieces are laid one after the other, each beginning where the one before ends. If all positions lie inside the text (and, with BPE, every word has something in the vocabulary) encode returns exactly the rows of these words at these positions, truncated, given the special tokens and padded; otherwise it reads outside a table. With a pre-tokenizer that keeps the characters all positions lie inside the text, so every such text is encoded; and if the normalizer also keeps the length, every word is reported at the characters it stands for.", "quantifier": "all configurations, histories of API calls, vocabularies, added tokens, normalizers, pre-tokenizers, basic-plane texts and truncation, padding and template settings", "why_tests_cant": "texts, token places and histories are unbounded; the alignment table is rewritten once per stretch, so an error may need any number of stretches before it shows", "anchors": ["src/added_vocabulary.cpp: AddedVocabulary::extract_and_normalize, AddedVocabulary::find_matches", "src/normalizer.cpp: NormalizedString::transform_range", "src/tokenizer.cpp: Tokenizer::encode, into_encoding"]}
{"id": "C140", "title": "A special token written in a text is a boundary", "statement": "For a tokenizer constructed from a configuration with special added tokens of printable ASCII characters, WordPiece or BPE and any pre-tokenizer that cuts without a prefix space, at any time after construction: take a text of the basic plane that consists of a part a that is empty or ends with a space, an added token c with normalized = false that is in the vocabulary, contains no space and begins with no other such token, and any part b. Whatever the normalizer, if neither a nor b is normalized away entirely, the words of the text are the words of a, the token, and the words of b; and when encode (without truncation, special tokens and padding) returns for the text and for its parts, the ids and token strings of the text are those of a, c and b put together. If moreover the stretches of the text are normalized in place and keep their length and the pre-tokenizer keeps the characters, encode returns for the text exactly if it does for the three parts (with WordPiece: always), and all rows of the text are those of the parts, with words numbered on and positions counted from where the part begins; the full encoding is these rows truncated, given the special tokens and padded. Since b may again contain such tokens, this determines the encoding of texts with any number of special tokens.", "quantifier": "all configurations, histories of API calls, vocabularies, added tokens, normalizers, pre-tokenizers, basic-plane texts before and after the token, and truncation, padding and template settings", "why_tests_cant": "the texts before and after the token, the token set and the history are unbounded; matching, normalizing and cutting share one alignment table, so a part may disturb what comes after it in combinations no finite set of texts covers", "anchors": ["src/added_vocabulary.cpp: AddedVocabulary::extract_and_normalize, AddedVocabulary::find_matches", "src/normalizer.cpp: NormalizedString::transform_range", "src/tokenizer.cpp: Tokenizer::encode, into_encoding"]}
{"id": "C141", "title": "Every outcome of encode, whatever the normalizer", "statement": "Construct a tokenizer from a configuration with any normalizer (or none), any pre-tokenizer that can cut every text, WordPiece or BPE, special added tokens and sane truncation, and use it in any way. Then encode of a non-empty valid text of any plane, in which none of the tokens added so far stands, ends in exactly one of these ways. (1) An encoding whose rows are, word after word, the tokens of the words of the normalized text (of the text itself if the normalizer leaves nothing), every word reported to begin inside the original text, then truncated, given the special tokens and padded; with BPE, all words are encodable. (2) An access beyond the end of the alignment table, only if there is a word at all. (3) std::range_error, exactly if the normalized text is not valid Unicode. (4) The very exception or undefined behaviour the normalizer alone ends with on the text. The words are determined by text, normalizer and pre-tokenizer.", "quantifier": "all configurations with special added tokens, normalizers of any kind and nesting, cuttable pre-tokenizers, vocabularies, histories of API calls, and valid non-empty texts of any plane without added tokens", "why_tests_cant": "normalizers nest without bound and each keeps the alignment table in its own, partly wrong, way; that no combination yields another outcome, or a word that begins beyond the text, is a statement about all of them and all texts", "anchors": ["src/tokenizer.cpp: Tokenizer::encode, into_encoding", "src/added_vocabulary.cpp: AddedVocabulary::extract_and_normalize", "src/normalizer.cpp: NormalizedString::transform_range, SequenceNormalizer::normalize, PrependNormalizer::normalize, BertNormalizer::normalize", "src/model.cpp: WordPiece::tokenize", "src/model.cpp: BPE::tokenize"]}
{"id": "C142", "title": "Every outcome of encode on a text with special tokens", "statement": "Construct a tokenizer from a configuration with any normalizer (or none), any pre-tokenizer that can cut every text, WordPiece or BPE, special added tokens of printable ASCII and sane truncation, and use it in any way. Then encode of a non-empty valid text of the basic plane in which added tokens may occur ends in one of these ways: (1) with the rows of exactly the words of the text (C137), truncated, given the special tokens and padded; with BPE every word is encodable; (2) with an access beyond the end of a vector; (3) with std::range_error, because a stretch of the text between its normalized = false tokens is normalized to something that is not valid Unicode; (4) with the very exception or undefined behaviour the normalizer alone ends with on such a stretch. The stretches are non-empty parts of the text; if none of these tokens stands in the text, only the whole text is one.", "quantifier": "all configurations with special added tokens, normalizers of any kind and nesting whose results stay in the basic plane, cuttable pre-tokenizers, vocabularies, histories of API calls, and valid non-empty texts of the basic plane", "why_tests_cant": "the text, the set and placement of tokens in it, the normalizer and the history are unbounded; that nothing else can happen, no matter how the alignment table is displaced by one stretch before the next is processed, is not visible on any finite set of texts", "anchors": ["src/tokenizer.cpp: Tokenizer::encode, into_encoding", "src/added_vocabulary.cpp: AddedVocabulary::extract_and_normalize, AddedVocabulary::find_matches", "src/normalizer.cpp: NormalizedString::transform_range", "src/model.cpp: WordPiece::tokenize, BPE::tokenize"]}
{"id": "C143", "title": "Renumbering a vocabulary renumbers the ids and changes nothing else", "statement": "Take a configuration with a WordPiece or BPE model and a second one in which the ids below the size of the vocabulary have changed places: in the vocabulary, in the special tokens of the template and in the padding id (the ids declared by the added tokens stay). If the first can be constructed, so can the second; and after any history of calls, any call gets the same answer from both, with every id replaced by its new number: encode gives the same tokens, type ids, words, offsets and masks, also in the overflowing encodings, and the renumbered ids; decode of the renumbered ids gives the same text; adding tokens gives the same count; and failures are the same. For WordPiece this asks that the unknown token is in the vocabulary or that 0 keeps its place (0 stands for a missing unknown token); for BPE that the priority queue does not look at the ids.", "quantifier": "all configurations with WordPiece or BPE, all exchanges of the ids 0..n-1 of the vocabulary, all histories of API calls and all calls", "why_tests_cant": "the ids pass through merge tables, reversed maps, added-token maps, templates, padding, caches and decode; that no step compares, orders or does arithmetic on them is a statement about every vocabulary, every permutation and every history", "anchors": ["src/tokenizer.cpp: Tokenizer::Tokenizer, Tokenizer::encode, Tokenizer::decode", "src/model.cpp: WordPiece::tokenize, BPE::BPE, BPE::tokenize", "src/added_vocabulary.cpp: AddedVocabulary::add_tokens", "src/post_processor.cpp: TemplateProcessing"]}
{"id": "C144", "title": "Threads: encode and decode together, additions alone", "statement": "Let any number of threads use one tokenizer, with encode and decode at any time and add_tokens / add_special_tokens only while no other call is in progress (a readers-writer lock). Then in every schedule every finished call has the answer the same call gets alone, on a tokenizer to which only the additions made before it began were made (for a model with a cache this assumes that single accesses to it are atomic); if the model keeps no cache and the empty text is not a token of its vocabulary, there is no data race; and no call waits for another, so an addition gets its turn. Without the exclusion this is false even with atomic accesses: an encode call that overlaps an addition may answer neither as before nor as after it.", "quantifier": "all tokenizers as constructed (any components, vocabulary without repeated ids or without the empty token), any number of threads and calls, all interleavings", "why_tests_cant": "the schedules, the number of calls and the texts are unbounded; a lost update of the shared map or a default entry inserted by one thread and read by another shows up in no test that does not hit the exact interleaving", "anchors": ["src/tokenizer.cpp: Tokenizer::encode, Tokenizer::decode, Tokenizer::add_tokens", "src/added_vocabulary.cpp: AddedVocabulary::extract_and_normalize, AddedVocabulary::find_matches, AddedVocabulary::id_to_token", "src/model.cpp: BPE::tokenize_with_cache"]}
{"id": "C145", "title": "The int arithmetic of text normalization", "statement": "The normalizers keep positions, counters and sizes in ints. Let the largest number for a configuration and a text length be computed by a fixed rule (8 bytes per character for the position tables of the text; 8 more per character and a text up to 54 times as long for a BERT normalizer; 2 more per character for a Unicode normal form; the length of the prefix plus 1 for Prepend; twice the text length plus 3 times the length of the content for Replace; added up along a Sequence). As long as it is below 2^31, no int operation overflows and no length stored in an int wraps: normalizing gives exactly the result computed with unbounded numbers. In particular every BERT normalizer is safe on every text of at most 2^25 characters. The factor 8 is exact: for texts of supplementary characters the position tables overflow from 2^28 characters on and not before. Without the bound the claim is false: Prepend with a prefix of 2^31 - 1 bytes overflows on a text of two characters.", "quantifier": "all normalizers of the configuration language, nested in any way, with any parameters; all texts (valid or not); all behaviours of the platform's character functions; ICU may expand a text at most 18 times (UAX 15) and the regular expression iterator reports matches inside the text", "why_tests_cant": "the overflow needs texts or prefixes of hundreds of megabytes; no test suite runs those, and none can cover all configurations", "anchors": ["src/normalizer.cpp: NormalizedString::transform, BertNormalizer::do_clean_text, BertNormalizer::do_handle_chinese_chars, BertNormalizer::do_strip_accents, NFC::normalize, Prepend::normalize, Replace::normalize, Strip::normalize, SequenceNormalizer::normalize"]}
{"id": "C146", "title": "The int arithmetic of added-token extraction", "statement": "Extraction of added tokens together with the normalization of the pieces between them keeps match positions, the running end of the pieces, the re-based position tables and the lengths of token texts in ints. Let the largest number be computed by a fixed rule from the normalizer, the length L of the text and a bound k on the number of pieces the first pass cuts it into: with L1 the longest normalized piece and T1 the bytes its tables cover, the larger of 8 L + k T1 and k (4 L + L1) + 4 L + 4 L1 + 1, and of the numbers of the normalizer itself. As long as it is below 2^31, no int operation overflows and no length stored in an int wraps: the pieces, their ids and offsets, the position tables and the token map are exactly those computed with unbounded numbers, and the same exceptions are thrown. The number of pieces is at most 4 L + 3 whatever the added tokens, and 1 for a text that contains none of the tokens of the first pass: with a BERT normalizer such a text is safe up to 2^22 characters. Without the bound the claim is false: 2^28 supplementary characters overflow the position tables even with no added token and no normalizer.", "quantifier": "all added vocabularies (any tokens, flags, tries and id maps, also inconsistent ones); all normalizers of the configuration language; all texts, valid or not; all behaviours of the platform's character functions; ICU may expand a text at most 18 times (UAX 15) and the regular expression iterator reports matches inside the text", "why_tests_cant": "the overflow needs texts of hundreds of megabytes or very many pieces; no test suite runs those, and none can cover all added vocabularies, flags and normalizers", "anchors": ["src/added_vocabulary.cpp: find_matches, extract_and_normalize", "src/normalizer.cpp: NormalizedString::transform_range"]}
{"id": "C147", "title": "The int arithmetic of encode for BERT tokenizers", "statement": "encode keeps in ints: the lengths of texts and UTF-16 strings, the positions added up when the pre-tokenizer re-bases its matches on the start of a piece, the offsets of the encoding (the original position of a word plus the position of a token in it), the word numbers, and all the numbers of the normalizer, of added-token extraction, of truncation and of padding. Let the largest number be computed by a fixed rule from the normalizer, the length L of the text and a bound k on the number of pieces the added tokens of the first pass cut it into: with L1 the longest normalized piece, the larger of that of the extraction (C146) and of k (6 L + 2 L1 + 1) + 10 L + 4 L1 + 1. For a tokenizer with the BERT pre-tokenizer, a WordPiece model and no added tokens of the second pass, as long as it is below 2^31, nothing in front of truncation overflows or wraps: encode gives exactly what it gives when all those numbers are unbounded, the same encoding or the same exception. With the conditions under which truncation and padding are safe, that holds for encode as a whole. k is at most 4 L + 3, and 1 for a text that contains none of the added tokens: with a BERT normalizer such a text is safe up to 2^22 characters. Without the bound the claim is false: a text of 2^28 supplementary characters overflows before anything is tokenized, whatever the tokenizer.", "quantifier": "all WordPiece vocabularies, thresholds and prefixes, all post-processors, all truncation and padding settings; all added vocabularies without tokens of the second pass; all normalizers of the configuration language; all texts, valid or not; all behaviours of the platform's character functions; ICU may expand a text at most 18 times (UAX 15) and the regular expression iterator reports matches inside the text", "why_tests_cant": "the overflow needs texts of hundreds of megabytes, which no test suite runs, and none can cover all vocabularies, normalizers and texts below the bound", "anchors": ["src/pre_tokenizer.cpp: split_normalized, PreTokenizedString::split, BertPreTokenizer::pre_tokenize", "src/model.cpp: WordPiece::tokenize", "src/tokenizer.cpp: into_encoding, Tokenizer::encode"]}
