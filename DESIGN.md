# Formal model of prabhuomkar/tokenizers.cpp in Coq 8.16

## Approach

The C++ in /repo/src (and the Android JNI file and the command-line example) is modelled function by function as total, computable Gallina. Model files hold
no proofs; every definition cites the file and lines it models and says where it simplifies. A C++ call has four possible outcomes, all
explicit in the model (`Base.v`, type `res`): `Ok v`, `Throw e` (a C++ exception), `Undef u` (undefined behaviour: out-of-range
`operator[]`/erase, null dereference, dereferencing `end()`, invalidated iterators) and `Diverge` (a loop ran out of its explicit fuel;
a program diverges when this holds for every fuel).

* Strings: `std::string` = list of bytes, `std::wstring` = list of code points (wchar_t is 32 bit on the Linux and Android targets),
  `icu::UnicodeString` = list of UTF-16 units; all `list N`.
* `int` configuration values are `Z`; comparisons `size_t` vs `int` are written with the wrap (`mod 2^64`) since several properties
  are about it. Other integer arithmetic is unbounded.
* Hash maps are association lists in an arbitrary iteration order (theorems quantify over the order).
* What the libraries decide (ICU normalization, general regexes and character classes, libc `isw*`/`tow*`, the signedness of
  `char`, the random engine, the tie-breaking of `std::priority_queue`) are fields of an `env` record. Theorems quantify over every
  environment; what is assumed of it is a visible hypothesis or a visible field contract (`e_pq` returns a maximal element of the queue;
  ICU matches are ordered and in range where a theorem needs that). `Env.v` is one concrete environment, used only in witnesses.

## What is modelled, and what is not

| Model file | Code | Not modelled there |
|---|---|---|
| Base.v | outcomes, vectors, strings, hash maps | allocation failure; int overflow except in IntChecked.v, NormIntChecked.v, AddIntChecked.v and TokIntChecked.v |
| Unicode.v | codecvt_utf8 / ICU UTF-8 and UTF-16 conversion | - |
| Common.v | src/common.cpp, common.h | - |
| Utils.v | src/utils.cpp | int overflow (Left truncation with a negative running offset counts as divergence; IntChecked.v has the overflow) |
| IntChecked.v | the int additions and subtractions of src/utils.cpp (truncation, padding) and of src/added_vocabulary.cpp (new ids), each with its range check; encode and add_tokens on top of them | int arithmetic of BPE (positions and counters, bounded by the length of the text) and of the decoders |
| NormIntChecked.v | all int arithmetic of src/normalizer.cpp except transform_range, each operation with its range check | iterator arithmetic (ptrdiff_t) |
| AddIntChecked.v | the int arithmetic of src/added_vocabulary.cpp:184-321 (find_matches, extract_and_normalize) and of NormalizedString::transform_range, each operation with its range check | the counter over the added tokens (180); iterator arithmetic |
| TokIntChecked.v | the int arithmetic of src/pre_tokenizer.cpp:118-273, of WordPiece (src/model.cpp:143-199), of into_encoding and encode (src/tokenizer.cpp:92-160), each operation with its range check, on top of the three files above | BPE, taken without range checks; iterator arithmetic |
| PostProcessor.v | src/post_processor.cpp | the `pair` template (never read by process) |
| Decoder.v | src/decoder.cpp | - |
| Normalizer.v | src/normalizer.cpp | ICU's tables (oracle) |
| PreTokenizer.v | src/pre_tokenizer.cpp | ICU regex engine: fixed patterns are written out, others are an oracle |
| WordPiece.v, Bpe.v | src/model.cpp | float rounding of `dropout` (rational), seeding of the random engine |
| AddedVocab.v | src/added_vocabulary.cpp | - |
| Tokenizer.v | src/tokenizer.cpp encode / decode / add_tokens / constructor after parsing | - |
| Config.v | tokenizer.cpp:24-90 and every with_* function | simdjson's text parser (a document is a JSON value with raw strings), on-demand laziness on malformed documents, duplicate keys, number formatting |
| Jni.v | tokenizers_android_jni.cpp (native methods) | the JVM, release calls, pending-exception rules |
| Android.v | Tokenizer.java (objects, handles, a process making calls), MainActivity.kt (configuration file, click listener) | layout and insets, decoding of the asset's UTF-8 by Java |
| Run.v | examples/run/run.cpp (the program scripts/compare_outputs/run.sh compares with the reference) | stream errors |
| Mask.v | examples/libtorch-bert/mobilebert-uncased.cpp, with the network (torch::jit::load, forward) as a parameter | floating-point scores (integers instead), messages on standard error |
| Cost.v | the loops of WordPiece.v, Bpe.v and AddedVocab.v once more, with the number of look-ups, queue elements, searches and copies (C138) | time inside one look-up, hashing, allocation; the loops of the normalizer and of the pre-tokenizers |
| Concurrent.v | encode as a program with explicit shared accesses | the C++ memory model beyond "two unordered conflicting accesses are a race" |
| Threads.v | encode, decode and exclusive additions in any number of threads | the interior of add_tokens (it runs alone; one overlapping call is modelled by encode_across) |

## How the properties are stated

A property is stated in terms of the API and its observable effects; specifications live in small `*Spec.v` files which do not use
the model's helpers (inductive relations, index arithmetic, character classes), and theorems in `Props*.v`. Every Props file has, beside
its theorems, `_case` examples showing a concrete non-trivial case meeting the hypotheses.

Where the code does not do what a user would expect, the property's `statement` is the exact behaviour (an iff or an equation that holds
for all inputs), `intended` in properties.jsonl keeps the expected claim, and a theorem with the suffix `_refuted` proves that the
expected claim fails, with a concrete input. So "proved" always means the `statement` text in full.

## Trusted base

* Coq's kernel (8.16.1), `vm_compute` included (finite sweeps and witnesses).
* `Print Assumptions` follows each property theorem: every one prints "Closed under the global context". No axiom is used or added.
  Only Coq's standard library is imported (loading it brings the axioms declared in `Coq.ssr.ssrunder`-like modules into the environment; no
  theorem depends on them).
* The model/code correspondence, by reading and citation: nothing of /repo is run here. As a check of it, `RepoTests.v` (generated from
  /repo/tests by scripts/repo_tests.py) runs all 47 unit tests of the repository on the model, with the documents, inputs and expected
  values of the C++ sources: every one gives the value the authors expect. These are examples, not proofs.
* seeded/LOG.jsonl records the wrong programs the theorems were tested against and the theorems tightened as a result.

## Plan per property

* **C01** Right truncation yields exact strided windows — Utils.v `truncate_encoding` (Right loop, fuel); windows specified by index arithmetic (Spec.v); induction on the loop. (PropsUtils.v)
* **C02** Left truncation keeps the last max_length tokens and strides backwards — Utils.v Left loop; exact windows as the code produces them (offset step -1); intended overlap refuted by witness. (PropsUtils.v)
* **C03** Exactly when truncation terminates — "for every fuel Diverge" against "some fuel Ok"; exact condition on max_length, stride, length; a run in which an `int` would overflow is counted as diverging. (PropsUtils.v)
* **C04** Truncation bounds the length and leaves short encodings alone — case analysis of truncate_encoding; max_length = 0, negative and OnlySecond explicit. (PropsUtils.v)
* **C05** Truncation with an unrecognised direction — the UB outcome of the missing `default` branch, exactly when it is reached. (PropsUtils.v)
* **C06** Padding reaches the target length and preserves the content — Utils.v pad, recursive over overflowing; induction on the encoding tree; target length specified on its own. (PropsUtils.v)
* **C07** Padding is idempotent and a no-op when nothing is missing — the same, as an idempotence law. (PropsUtils.v)
* **C08** A negative padding target is rejected, not padded — size_t/int comparison written with its wrap; length_error outcome. (PropsUtils.v)
* **C09** Padding positions carry word index 0 — exact padding rows, lifted to encode; intended null word index refuted. (PropsLength.v, PropsUtils.v)
* **C10** All columns of an Encoding stay parallel — invariant `parallel` through into_encoding, truncation, post-processing and padding, composed over encode. (PropsEncode.v)
* **C11** How many ids encode returns — exact count formula; iff for the max_length bound. (PropsEncode.v, PropsLength.v)
* **C12** Masks mean what they say — row view of an encoding (zip of the columns); invariant over every stage. (PropsEncode.v)
* **C13** Template post-processing assembles exactly the template — PostProcessor.v template against a declarative concat-map of rows. (PropsPost.v)
* **C14** add_special_tokens=false adds nothing — the same with add_special_tokens = false. (PropsPost.v)
* **C15** Overflowing windows through post-processing — overflowing windows through each post-processor; template drops them (witness). (PropsEncode.v, PropsLength.v, PropsPost.v)
* **C16** ByteLevel post-processing only trims spaces from offsets — process_offsets against a leading/trailing white-space specification; all other columns unchanged; overflowing included. (PropsPost.v)
* **C17** Sequence post-processing is left-to-right composition — fold law. (PropsPost.v)
* **C18** WordPiece decoding rule — Decoder.v against an inductive relation on token lists. (PropsDecoder.v)
* **C19** Cleanup replacement terminates and is leftmost non-overlapping — replace loop (find + replace with position, fuel) against a declarative leftmost non-overlapping relation; totality. (PropsDecoder.v)
* **C20** The Replace, Fuse, Strip and ByteFallback decoders discard all text — these decoders return the empty list; exact condition for an empty result of a decoder tree. (PropsDecoder.v)
* **C21** decode resolves ids and drops exactly the special tokens — Tokenizer.v decode against a `denotes` relation; all-or-nothing on unknown ids. (PropsHistory.v)
* **C22** For which bytes ByteLevel decoding inverts the byte-level alphabet — 256-value sweep lifted by induction; exact set of bytes that round-trip. (PropsDecoder.v)
* **C23** The byte-level alphabet is a bijection onto printable characters — 256-value sweep lifted to a quantified statement. (PropsDecoder.v)
* **C24** WordPiece is exactly greedy longest-match-first — WordPiece.v against an inductive greedy relation, both directions. (PropsWordPiece.v)
* **C25** WordPiece tokens tile the word — tokens tile the word by offsets; ASCII version with the token's text. (PropsWordPiece.v)
* **C26** WordPiece emits the unknown token exactly when it must — unknown token iff the greedy relation has no derivation or the word is too long. (PropsWordPiece.v)
* **C27** BPE merging terminates without undefined behaviour — Bpe.v merge_all over any conforming priority queue and random stream; well-formedness invariant of the linked symbol array; fuel bound. (PropsBpe.v)
* **C28** BPE result is a fully merged form of the word — refinement of merge_all to list rewriting + completeness invariant of the queue. (PropsBpe.v)
* **C29** BPE applies merges in decreasing rank — priority invariant: among the applicable merges the highest rank is taken; intended order refuted. (PropsBpe.v)
* **C30** BPE is lossless on known characters — text invariant over merges. (PropsBpe.v)
* **C31** What BPE tokens account for — byte accounting invariant; iff for "nothing lost". (PropsBpe.v, PropsByteBpe.v, PropsUnknown.v)
* **C32** Unknown characters become the unknown token, fused on request — symbol construction against a run specification. (PropsBpe.v)
* **C33** What byte fallback looks up — exact key looked up (UnkSpec); the <0xNN> key refuted. (PropsBpe.v, PropsUnknown.v)
* **C34** The BPE cache is transparent — cache invariant by induction over histories. (PropsBpe.v)
* **C35** Every BPE token id resolves to a vocabulary entry — invariant: symbol ids lie in the vocabulary. (PropsBpe.v)
* **C36** BPE dropout extremes and determinism — dropout branch for the probability extremes; determinism. (PropsBpe.v)
* **C37** ignore_merges emits the whole word — ignore_merges branch. (PropsBpe.v)
* **C38** Added-token ids are fresh, stable and unique — AddedVocab.v add_tokens; numbering invariant over histories. (PropsAdded.v, PropsLifetime.v)
* **C39** Added ids decode to the added text — the same, decoding side. (PropsAdded.v)
* **C40** add_tokens reports the number of non-empty tokens and registers special ones — the same, count and special registration. (PropsAdded.v)
* **C41** Added-token matching partitions the text — find_matches: partition invariant of positions. (PropsAdded.v, PropsPieces.v)
* **C42** Which occurrences of added tokens are found — recognition rule (start / after space / after match, shortest) as an inductive specification; exact match list. (PropsAdded.v)
* **C43** Tokens added at run time — tries are built from model ids only: new tokens ignored, known tokens found. (PropsRuntime.v)
* **C44** What a recognised added token encodes to — each model on a recognised piece; exact condition for its own id. (PropsAdded.v)
* **C45** When loading added tokens from the configuration is well defined — constructor aliasing UB; iff. (PropsAdded.v)
* **C46** lstrip, rstrip and single_word do exactly what they say on ASCII texts — ASCII texts: exact white space absorbed; out-of-range exception otherwise (witness). (PropsAdded.v)
* **C47** A fresh text's alignment table is exact — Normalizer.v constructor: table specification by UTF-8 lengths. (PropsNorm.v)
* **C48** Chinese-character padding is exact and keeps alignment — handle_chinese_chars: induction with running-index invariant; origins of each byte. (PropsNorm.v)
* **C49** clean_text: result, definedness and alignment — clean_text against an independent `unwanted`/`blank`/`cleaned` specification; definedness iff. (PropsNorm.v)
* **C50** Unicode normalization forms return ICU's text and are memory safe — nf_*: ICU as oracle; memory safety for all oracle answers. (PropsNorm.v)
* **C51** Exactly when accent stripping is memory safe — exact safety condition of the erase loop. (PropsNorm.v)
* **C52** What Strip removes — exact low-byte rule of Strip. (PropsNorm.v)
* **C53** StripAccents removes exactly the combining marks U+0300..U+036F — filter law, idempotence. (PropsNorm.v)
* **C54** Prepend on every text — exact text and definedness. (PropsNorm.v)
* **C55** What Replace does to the text and when it is memory safe — exact definedness, one/no match cases. (PropsNorm.v)
* **C56** Sequence normalization is left-to-right composition — fold laws for normalizer, pre-tokenizer and decoder sequences. (PropsNorm.v)
* **C57** Isolated splitting is lossless — PreTokenizer.v split over any oracle regex with sane matches. (PropsPre.v)
* **C58** BERT pre-tokenization separates words — bert split against an independent character-class specification. (PropsPre.v)
* **C59** Recognised tokens in pre-tokenization — recognised splits through every pre-tokenizer. (PropsPre.v)
* **C60** ByteLevel pre-tokenization of every text — exact result and throw condition, signedness of char as parameter. (PropsPre.v)
* **C61** What ByteLevel use_regex splits by — what the truncated literal compiles to; intended GPT-2 pattern refuted. (PropsPre.v)
* **C62** What Split makes of its behavior and invert options — exact option table. (PropsPre.v)
* **C63** What ByteLevel add_prefix_space does — exact effect, pieces forgotten. (PropsPre.v)
* **C64** Exactly when the empty text can be encoded — exact iff over all configurations (EmptySpec). (PropsEmpty.v, PropsEncode.v)
* **C65** Token offsets point into the original text — end-to-end composition of alignment invariants. (PropsOffsets.v)
* **C66** Word indices are consistent — into_encoding; word index monotone and equal to the split index. (PropsEncode.v)
* **C67** encode is history independent — state machine of the tokenizer; induction over histories. (PropsHistory.v)
* **C68** Invalid code points are rejected by an exception — Unicode.v codecvt contract; end to end. (PropsEncode.v)
* **C69** The BERT uncased pipeline is safe and exact on ASCII — end-to-end composition on ASCII. (PropsOffsets.v)
* **C70** When the configured normalizer is applied — exact conditions under which the normalizer reaches the result. (PropsPipeline.v)
* **C71** Concurrent encode calls on one tokenizer — Concurrent.v: small-step interleaving of shared accesses; program = encode alone; race states reachable / unreachable. (PropsConcurrent.v)
* **C72** Decoding an encoding restores the text — end-to-end: encode then decode, provisos each shown necessary. (PropsRound.v)
* **C73** A malformed configuration is reported as an error — Config.v over a JSON AST; error classes exactly. (PropsConfig.v)
* **C74** Which tokens the vocabulary of a configuration gives — raw-key reading of vocabulary keys, exactly. (PropsConfig.v)
* **C75** Supported and unsupported component types — type dispatch tables. (PropsConfig.v)
* **C76** UTF-8 conversion round-trips — UTF-8 arithmetic, exact set of decodable byte strings. (PropsDecoder.v)
* **C77** What Android decode returns — Jni.v: modified UTF-8 against UTF-8, exactly. (PropsApi.v)
* **C78** What the Android constructor passes through — the same for the constructor. (PropsApi.v)
* **C79** A well-formed configuration yields the tokenizer it describes — Config.v: serialise-then-read law for a described tokenizer. (PropsConfig.v)
* **C80** What missing optional components mean — absent components: no-op in encode, null dereference in decode/add_tokens. (PropsApi.v)
* **C81** BERT-style tokenizers compute the reference tokenization — reference tokenization (RefSpec: inductive, from words to ids) against encode; uniqueness of the reference. (PropsReference.v)
* **C82** Token offsets are ordered, disjoint and cover the text — ordered disjoint offsets whose union is the non-white text. (PropsText.v)
* **C83** The amount and kind of white space does not matter — two texts with equal words encode alike up to offsets. (PropsText.v)
* **C84** Tokenization is compositional over white space — concatenation law of encode. (PropsText.v)
* **C85** The uncased BERT pipeline ignores ASCII case — case-fold law of encode. (PropsText.v)
* **C86** Encoding and decoding never change the configuration — frame conditions over histories. (PropsFrame.v)
* **C87** Truncation loses no token — join-with-overlap law for windows. (PropsFrame.v)
* **C88** Decoding can be streamed — decode is a monoid morphism (ByteLevel) / suffix-determined (WordPiece) / prefix monotone. (PropsStream.v)
* **C89** A BERT-style tokenizer encodes texts with added tokens exactly as the reference says — `MixSpec.v` defines the words of a text with added tokens inductively (`fields`, `text_words`: raw tokens, then normalized tokens, then `bert_split`), from the tokens given to the tokenizer and their flags only; `C89_reference_added` proves by induction over the recognised spans that encode returns `words_rows` of these words; `C89_words_once` (determinism), `C89_token_whole` (a recognised token is one row).. (PropsMixed.v)
* **C90** What a byte-level BPE tokenizer keeps of a text — PropsByteBpe.v, specification in ByteSpec.v: BPE without unknown token keeps exactly the bytes that are tokens by themselves (C31_kept_bytes, by the lossless-merge invariant); the GPT-2 byte alphabet maps printable ASCII bytes to themselves and all others to characters whose UTF-8 bytes are at least 128; composed with the ByteLevel pieces (C60, C61), into_encoding and the decoder theorem C22.. (PropsByteBpe.v)
* **C91** add_special_tokens only adds special tokens — relational proof: a simulation between the two post-processing runs (rows with special mask 0 agree through a view), by induction over the post-processor and over the nesting of overflowing parts; totality of post-processing and padding for the outcome.. (PropsFlag.v)
* **C92** Results do not depend on hash-table iteration order — congruence of every function that reads the vocabulary with respect to lookups, size and reverse lookups; permutations of one-to-one association lists preserve these; simulation over histories of calls.. (PropsOrder.v)
* **C93** A BPE tokenizer encodes a text word by word, exactly when every word has something in the vocabulary — declarative word and token relations (BpeRefSpec.v); the words come from C81's bert_split, each word from C31/C33/C28/C35, put together over the splits by induction; undefined iff some word is uncovered. (PropsBpeText.v)
* **C94** Offsets of BPE tokens are exact for ASCII words, and only for those — the tiling of C31 shifted to the word's position; byte count = unit count iff ASCII, by induction on the word; slices from C30. (PropsBpeText.v)
* **C95** Whatever pre-tokenizer cuts the text, it is encoded word by word, and a word cut past the end of the original text is undefined behaviour — a relation from words to words per stage (CutSpec.v), shown functional and total; each stage of the model is shown to compute it by induction over the pre-tokenizer tree; then rows by induction over the splits; undefined iff a word starts past the table. (PropsCut.v)
* **C96** When the int arithmetic of truncation and padding overflows — IntChecked.v transcribes the int operations with a range check; exact condition for truncation and padding by loop invariants; encode with checks = encode without under plain bounds. (PropsInt.v)
* **C97** Adding tokens overflows the id counter only when the largest int is already an id — invariant over the list of tokens: ids stay at most M plus the number of tokens seen; iff for one token. (PropsInt.v)
* **C98** Every call ends, except for one known truncation loop — Every stage of the model that can run out of fuel is shown not to (normalizers, added-token search, pre-tokenizers, models, post-processors, padding); truncation is the one exception, settled by C03; fuel monotonicity gives one result for all large fuels.. (PropsOutcome.v)
* **C99** The exceptions and the kinds of undefined behaviour of each call — One predicate transformer (`ends`) carried through every stage of encode, decode and add_tokens: allowed exceptions, allowed undefined behaviour, facts about results. One concrete call per listed exception shows that each happens.. (PropsOutcome.v)
* **C100** Truncation, post-processing and padding fail in exactly three ways — Windows of the truncation loops lie inside the encoding and the first exists (induction on the loop), so slicing succeeds; post-processors are total on parallel columns; padding rejects exactly negative targets. The corollary C100_total combines this with C95_total.. (PropsFinish.v)
* **C101** When BPE results are the same on every C++ library — Two highest-rank runs to normal forms from the same start coincide when every reachable state has one highest-rank successor (C28 + C29 give the runs); no byte repeated gives that by losslessness. Lifted to encode by showing that no stage before the model reads the queue.. (PropsPortable.v)
* **C102** What the BPE cache holds, and that it grows without bound — Invariant over the words of a call and over the history: keys are unique and are exactly the words reached; sizes by NoDup permutation.. (PropsCache.v)
* **C103** Offsets after an accented letter in an accent-stripping tokenizer — The size column after NFD and stripping is computed by induction over the pieces; transform_range over the whole text re-bases by cumulative sizes; the reported position is then the block holding that byte. Drift: sums of counted bytes against sums of widths.. (PropsAccent.v)
* **C104** Offsets of BERT tokenizers on Chinese and other text — Block invariants of the alignment table through cleaning, padding and stripping; re-basing is the identity on gapless blocks; the looked-up block is char_of_byte of the counted bytes. Exactness and the one-sided bound by induction over the pieces.. (PropsBertOffsets.v, PropsLlama.v)
* **C105** A text that normalizes to nothing — extract_and_normalize computed on an empty sub-normalization: the table becomes empty and the raw split is kept; the first base lookup of into_encoding is then out of bounds. Corollaries through bert_blocks (accents only) and the one-entry erase (one deleted character).. (PropsBertOffsets.v)
* **C106** Llama-style tokenizers: when a text can be encoded, and what decoding gives — Prepend and Replace keep the offset table smooth (entries repeat or go up by one), so re-basing is the identity and the word is based at 0; Replace is defined iff every shifted entry exists (apply_replace_ok/oob); the BPE part is C93's, over any table. Room: positions are strictly increasing, so the last space decides.. (PropsLlama.v)
* **C107** A BPE model emits only plain ASCII vocabulary entries — A byte of 128 or more with ASCII around it is not UTF-8, so the initial symbols are ASCII entries, byte-fallback entries or the unknown token; merges concatenate texts, so the invariant is kept along every merge sequence; distinct ids give the texts back.. (PropsAscii.v, PropsDecodable.v)
* **C108** What encode returns, decode accepts — Tokens of words are vocabulary entries (greedy segmentation for WordPiece; C35 and C107's case split for BPE); C12's row classification carries this through truncation, template and padding; a dense vocabulary has an entry with id 0; C21 and totality of decoders give the equivalence for decode.. (PropsDecodable.v)
* **C109** What encode returns, position by position, end to end — Row by row: the first range of truncation is a prefix or suffix, template parts are row lists that concatenate, C16 read row-wise for trimming, C06 for padding; then C81 (BERT) and C95 (BPE) supply the rows of the text, and C100's totality lemmas the result.. (PropsFull.v)
* **C110** Characters deleted by clean_text leave no trace, not even in the offsets — The tables after the deletions are shown to be blocks with strictly increasing sources (an invariant of erasing), so transform_range numbers them consecutively; then the word-by-word proof of C104 applies with the identity, and the two encodings have the same rows.. (PropsDeleted.v)
* **C111** A normalizer that works in place leaves no trace in the encoding — an inductive description of the normalizers that leave the table alone (StripSpec.settled); they satisfy normalized_in_place; then the pieces, their positions and so every later stage agree, stage by stage, for any two texts with the same normalized text (PropsStrip.v).. (PropsStrip.v)
* **C112** From a configuration file to encodings, after any use of the tokenizer — composition of C79 (construction), C45, C38 (what a history leaves of the tokenizer), C89 (the text part) and C109 (the later stages); C108 for decoding (PropsBertConfig.v).. (PropsBertConfig.v)
* **C113** In a configuration, null means the default value, and for strip_accents: as lowercase says — `NullSpec.v` says when a document spells out another's nulls; the parsers are followed key by key, and by induction on the nesting of sequences. For strip_accents the two normalizers are shown to act alike on every text.. (PropsNull.v)
* **C114** The spelling of strings in a configuration does not matter — `EscSpec.v` gives the meaning of a JSON string as an inductive relation, `SpellSpec.v` respelled documents; the reader is proved sound and complete for the relation, and each parser is shown to respect respelling, by induction on the nesting.. (PropsSpelling.v)
* **C115** What the example program prints, and what its output tells — `RunSpec.v` defines decimal numerals, listings and Python's quoting as relations; numerals are shown to be unique and readable from the front of a text, which makes every printed column readable by induction on its length.. (PropsRun.v)
* **C116** Merge rules are the two white-space separated parts of each line — rule_text is an independent relation on byte strings; the model's stream extraction is proved equivalent to it (two_fields_iff), then the table construction by induction over the lines.. (PropsMerges.v)
* **C117** What the objects of added_tokens mean — token_object is an independent relation (last value of a key, or its default); induction from the end of the object over the model's loop, then determinism of the relation; reading of the whole document as in C113.. (PropsToken.v)
* **C118** The text conversions are standard UTF-8 and UTF-16 — UtfSpec.v states both tables as bit patterns, independently of the model's arithmetic; PropsUtf.v proves each row equivalent to the model's encoder by splitting numbers into bits, and lifts it to strings with the decoder facts of UnicodeProofs.v.. (PropsRepair.v, PropsUtf.v)
* **C119** A BPE tokenizer emits only what the merges can make; special tokens written in the text are no exception — MadeSpec.v defines inductively what merging can make, over texts; PropsMade.v shows that initial symbols are of this kind and that every merge step preserves it, by the table of C116, and lifts it through encode with C12.. (PropsMade.v)
* **C120** The mask-filling example fills in the first masked position — Mask.v models the program with the network as a parameter; PropsMask.v proves the search loop, the tensor index and argmax against MaskSpec.v and uses C10, C12 and C108 for the position.. (PropsMask.v)
* **C121** Added tokens in BPE and byte-level text — PartsSpec.v states the words by inductive relations (fields, divided, cuts_into) over characters. PropsParts.v proves that the scan finds exactly the tokens of the relation and the splits are its segments, that pre-tokenizers distribute over pieces and leave recognised printable tokens alone, that letterwise normalizers act as a map with the alignment tables unchanged, and derives existence, uniqueness and the rows for both models; C121_config composes with construction, history and the finishing stages.. (PropsParts.v)
* **C122** Tokenizers with ByteLevel add_prefix_space (RoBERTa style), end to end — PrefixSpec.v states the words of the text with the space (cuts_into of C95) and which preparations keep positions (C95's and C121's settings). The alignment table after OpAdd is computed from the numbered table; the first piece of extract_and_normalize is shown not to matter because the pieces are made anew; pre-tokenizers and models are shown not to read the table.. (PropsPrefix.v)
* **C123** Added tokens that do not occur in a text do not matter for it — Relational proof: two added vocabularies that agree on every run of UTF-16 units of the text and of its normalized stretches give the same segments, outcomes and pieces (RelevSpec.v, PropsRelevant.v); a unit run that spells a token without U+FFFD is a run of characters; ids are injective, so the flags of other tokens are untouched.. (PropsRelevant.v)
* **C124** Extending a WordPiece vocabulary changes only the texts it concerns — Every piece of text handed to the model is a slice of the text or of the normalization of a stretch of it, up to halves of supplementary characters that become U+FFFD (invariant through extraction and pre-tokenization); so the greedy lookups agree. (b) by induction over the greedy loop: the longest match under the larger vocabulary is an entry of the smaller one.. (PropsGrow.v)
* **C125** Decoding gives the text back with canonical spacing, and encoding that again gives the same tokens — C81 (reference encoder) gives the tokens word by word; induction on the segmentation shows that the decoder glues the pieces of a word back; C92/C21 for ids; the respelled text is split back into the same words by the Bert pre-tokenizer (induction), then C92's reasoning on rows without offsets. (PropsRespell.v)
* **C126** Extending a BPE model changes only the texts it concerns — BpeAgree.v: two merge tables that agree on every adjacent pair of every sequence reachable by merging give the same merge_all (simulation on the linked-array invariant of C29); reachable sequences consist of ids of parts of the word (invariant 'reads', by induction on steps), and parts of a word are parts of the text (ComesProofs.v). (PropsBpeGrow.v)
* **C127** What the ByteLevel decoder returns for any ids — Model: Decoder.byte_level_decode, Tokenizer.decode. The characters of a token are given by RepairSpec.repaired8 (the Unicode Standard's reading of any byte string, total and unique: C127_applies); ByteDecSpec.low_bytes states the bytes per character. Proof: charAt at every unit position of a UTF-16 text by induction on the text with an arbitrary well-formed prefix, the table lookup by evaluation on the 256 possible keys; then C21_decode.. (PropsByteDec.v)
* **C128** Java tokenizer objects are independent and answer as if just constructed — Android.v models objects as indices into a list of native tokenizers; invariant: every native tokenizer is its constructed self after calls that add nothing (C67); the run is characterised as the run answered by fresh tokenizers, by induction over the calls (iff, with uniqueness).. (PropsAndroid.v)
* **C129** What the example activity shows — Screens: induction over the clicks with the invariant of C128, iff. Refutations from C68 and C64. Survival: C112 (encoding and decodability of BERT configurations), ASCII-preservation of the WordPiece decoder and its cleanup, C77 (ASCII decodes to a Java string).. (PropsActivity.v)
* **C130** How many tokens a text can have — Word level: tokens tile the word (C24, C31: total symbol length = sum of piece weights, by induction over the runs of unknown pieces). Text level: any additive measure does not grow under character-keeping cutting (induction over the pre-tokenizer); ByteLevel characters take at most two bytes. post_length is monotone.. (PropsCount.v)
* **C131** The order, the grouping and the repetition of additions do not matter for encode — The search consults only the tries and three flags of the reverse map; both are characterised by the requests (invariant over the history that every entry of the reverse map was given), so that the extractions of the two tokenizers agree unit by unit; C67 removes the encodings in between. Batch: registering and assigning commute, because assigning only asks the special set about the texts of the first list. Again: same ids, same special set, hence same decode.. (PropsBatch.v)
* **C132** Tokenizers that begin with a Unicode normal form: which words come out, where they are reported, and when the process is lost — FormSpec.v computes the landing position from the two texts alone (comparison flags, bytes per unit, prefix sums). PropsForm.v: induction over the comparison relates grow_ids to the flags; induction over the flags gives the sizes after apply_grow; unit sizes of a fresh string by induction over the text (surrogate pairs included); transform_range is evaluated exactly, to the last table entry, so that both the landing and the out-of-bounds cases are equivalences; the arithmetic facts (safe, far, exact, decomposed) by induction on prefix sums.. (PropsForm.v)
* **C133** BERT normalizers on every text with nothing to delete: supplementary characters, Chinese padding and decompositions of any length — UncasedSpec.v computes text, entries and byte units from the text alone. PropsUncased.v generalises the alignment argument of C132 to any normalizer whose byte table rises by at most one unit at a time (transform_range evaluated exactly), then follows the normalizer step by step: cleaning as a map, padding by induction over the units, decomposition by the comparison flags of C132, mark removal by induction over the decomposition. The cased corollaries by counting units and entries.. (PropsUncased.v)
* **C134** Cleaning BERT normalizers on texts with any number of characters to delete, of all planes — EraseSpec.v defines entries and bytes left by recursion on the numbers of the deleted characters, from the text alone. PropsErase.v proves by induction over the deletions (with the invariant of C110) that the code's tables are exactly these, then the remaining steps as in C133, and instantiates the alignment argument of PropsUncased.v, generalised to tables whose runs are renumbered. C134_cased: the bytes left equal the sum of the entries left, all positive, and there are at least as many entries as units.. (PropsErase.v)
* **C135** BERT normalizers on every text: deletions, padding and decomposition together — WholeSpec.v describes the tables left by deletions and the padding as a walk over characters, entries and bytes. PropsWhole.v proves that the code's padding loop is this walk for every table (not only well-formed ones), by induction with the prefix of the table as invariant; combines it with the exact deletions of C134 and the decomposition of C133, shows the cases are exhaustive (C135_all_cases), and instantiates the alignment argument of PropsUncased.v.. (PropsWhole.v)
* **C136** Every outcome of encode for a configured BERT tokenizer — TotalSpec.v. PropsTotal.v extends the alignment argument of PropsUncased.v to texts of which nothing is left and to invalid results, joins it with C135's exhaustive cases, removes the added tokens with C123, and adds construction (C79, C45), history (C38) and finishing (sane_finishes of C112). C136_exclusive shows that the conditions are disjoint and the words unique.. (PropsTotal.v)
* **C137** The words of a text with special tokens, accents and Chinese characters, whatever the normalizer — TextsSpec.v. PropsTexts.v generalises the matching lemmas of C121 from printable ASCII to the basic plane, follows extract_and_normalize for an arbitrary normalizer result (pieces, or the raw pieces if nothing is left), shows that the texts of the words do not depend on positions, and adds construction (C79, C45), history (C38) and finishing (C112).. (PropsTexts.v)
* **C138** How much work encode does — Cost.v repeats the loops, returning in addition how often the body looked something up, took an element from the queue or copied; C138_counted proves that counting changes no result. The bounds are proved by induction over the loops (for BPE with the linked-array invariant of the merge loop: a merge removes one live symbol and adds at most two elements to the queue), the copies from the cache contents of C102, the worst cases by computing the count of a word of any length.. (PropsCost.v)
* **C139** Words, rows and positions of texts with added tokens that are normalized in place — LaidSpec.v describes normalizing in place, the laying of the pieces and the words with positions, without tables. PropsLaid.v proves that such normalizers leave the table of their argument alone, that transform_range puts the table of a stretch in place of as many entries of a table numbered 0, 1, 2 (of any entry sizes) and yields again such a table, and by induction over the stretches that all of extract_and_normalize does; then that the rows are those of the words. PropsLaidAt.v proves the claims about positions.. (PropsLaid.v, PropsLaidAt.v)
* **C140** A special token written in a text is a boundary — BoundSpec.v says what a delimiter and a boundary are and how rows are moved on. PropsBound.v proves by induction over the fields that the tokens found in the text are those of the parts, and that the segments are those of the parts with the token between them; with C137 the words follow. PropsBoundAt.v passes to ids and tokens for both models; PropsBoundRows.v proves, by laying the segments of the parts one after the other, that words, positions and rows are those of the parts moved on, in both directions.. (PropsBound.v, PropsBoundAt.v, PropsBoundRows.v)
* **C141** Every outcome of encode, whatever the normalizer — EverySpec.v defines the words of the normalized text and when two calls fail alike. PropsEvery.v shows, normalizer by normalizer, that a table never gets more changes of original position than the text has units (all operations only drop, repeat or renumber runs), so that after renumbering every entry lies inside the text; the words and the four outcomes follow for both models, and C123 passes from the history to a tokenizer without added tokens.. (PropsEvery.v)
* **C142** Every outcome of encode on a text with special tokens — StretchSpec.v says what a stretch is (the field rule of MixSpec.v, no matching code). PropsStretch.v follows the computation with a predicate saying how it may end (Ok, out of bounds, range_error or failure attributed to a stretch), closed under bind: induction over the segments for the normalizing pass, then cutting, the model and the rows; the success case is C137, and C100 carries it through truncation, template and padding.. (PropsStretch.v)
* **C143** Renumbering a vocabulary renumbers the ids and changes nothing else — RenumSpec.v says what renumbering a configuration, a call and an answer is. PropsRenum.v is a simulation: renaming the ids of a tokenizer state commutes with every function of the model (WordPiece and BPE tokenization with merge table, queue and cache, added tokens, post-processing, padding, truncation, decode), shown function by function by induction; the call level follows for every history by induction, and C79 carries it to constructors. C143_unknown_case shows that the condition on the unknown token is needed.. (PropsRenum.v)
* **C144** Threads: encode and decode together, additions alone — Threads.v adds decode (one id per step) and exclusive additions to the small-step programs of Concurrent.v. PropsThreads.v keeps an invariant over all schedules: the tokenizer is alike (HistProofs.v) to the one after the additions alone, every encode in progress is good (ends with that answer whatever the others insert) and looks up only ids of the tries, every decode in progress still leads to that answer. C144_overlap_refuted is a concrete overlapping call.. (PropsThreads.v)
* **C145** The int arithmetic of text normalization — NormIntChecked.v transcribes the normalizers again with a range check on every int operation and length conversion. PropsNormInt.v keeps an invariant of the position tables (every range, plus the sizes of all later ones, ends at or before T), shows that each transform raises T by what it inserts, and adds this up along every loop; NormIntSpec.v has the rule for the largest number.. (PropsNormInt.v)
* **C146** The int arithmetic of added-token extraction — AddIntChecked.v transcribes find_matches, extract_and_normalize and transform_range again with a range check on every int operation and length conversion. PropsAddInt.v bounds every match position by the bytes of the text, shows that transform_range raises the bound of the ranges by the bytes of the piece's tables and the bound of the offsets by the number of times the original position changes in them, and adds this up over the pieces; AddIntSpec.v has the rule for the largest number.. (PropsAddInt.v)
* **C147** The int arithmetic of encode for BERT tokenizers — TokIntChecked.v transcribes the pre-tokenizers, WordPiece, into_encoding and encode again with a range check on every int operation and length conversion, on top of the checked normalizer, extraction, truncation and padding. PropsTokInt.v carries a bound on the start plus the length of every piece through extraction, the splits at white space and at punctuation and WordPiece, and a bound on the number of words by the units of the normalized pieces; TokIntSpec.v has the rule for the largest number.. (PropsTokInt.v)
