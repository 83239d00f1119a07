(** The project's own unit tests (tests/*.cpp), run on the model: every TEST of the repository with the documents, inputs and
    expected values written there. Generated by scripts/repo_tests.py. These are examples, not proofs of properties: they check
    that the model agrees with what the authors observed of the code. *)
From Verif Require Import Base Unicode Common Utils PostProcessor Decoder Normalizer PreTokenizer WordPiece Bpe AddedVocab Tokenizer Config Env.
From Coq Require QArith_base.
Import ListNotations.

(** The answers of ICU and the C library on the strings of the tests, computed with Python's unicodedata. *)
Definition tests_norm (f : nform) (s : wstr) : option wstr :=
  if match f with NFD => true | _ => false end && leqb s ([72; 233; 108; 108; 243; 32; 87; 243; 114; 108; 100; 33; 32; 84; 104; 239; 115; 32; 239; 115; 32; 225; 32; 116; 233; 115; 116; 46]%N) then Some ([72; 101; 769; 108; 108; 111; 769; 32; 87; 111; 769; 114; 108; 100; 33; 32; 84; 104; 105; 776; 115; 32; 105; 776; 115; 32; 97; 769; 32; 116; 101; 769; 115; 116; 46]%N)
  else if match f with NFKD => true | _ => false end && leqb s ([72; 233; 108; 108; 243; 32; 87; 243; 114; 108; 100; 33; 32; 84; 104; 239; 115; 32; 239; 115; 32; 225; 32; 116; 233; 115; 116; 46]%N) then Some ([72; 101; 769; 108; 108; 111; 769; 32; 87; 111; 769; 114; 108; 100; 33; 32; 84; 104; 105; 776; 115; 32; 105; 776; 115; 32; 97; 769; 32; 116; 101; 769; 115; 116; 46]%N)
  else if match f with NFC => true | _ => false end && leqb s ([97; 769]%N) then Some ([225]%N)
  else if match f with NFKC => true | _ => false end && leqb s ([97; 769]%N) then Some ([225]%N)
  else if match f with NFD => true | _ => false end && leqb s ([72; 233; 108; 108; 111; 32; 87; 111; 114; 108; 100; 33]%N) then Some ([72; 101; 769; 108; 108; 111; 32; 87; 111; 114; 108; 100; 33]%N)
  else if match f with NFKD => true | _ => false end && leqb s ([72; 233; 108; 108; 111; 32; 87; 111; 114; 108; 100; 33]%N) then Some ([72; 101; 769; 108; 108; 111; 32; 87; 111; 114; 108; 100; 33]%N)
  else if match f with NFKC => true | _ => false end && leqb s ([64257]%N) then Some (str "fi")
  else if match f with NFKD => true | _ => false end && leqb s ([64257]%N) then Some (str "fi")
  else if match f with NFC => true | _ => false end && leqb s ([101; 772; 772; 772; 111]%N) then Some ([275; 772; 772; 111]%N)
  else if match f with NFKC => true | _ => false end && leqb s ([101; 772; 772; 772; 111]%N) then Some ([275; 772; 772; 111]%N)
  else Some s.
Definition split_pattern : bytes := (str "(?i:'s|'t|'re|'ve|'m|'ll|'d)|[^\r\n\p{L}\p{N}]?\p{L}+|\p{N}{1,3}| ?[^\s\p{L}\p{N}]+[\r\n]*|\s*[\r\n]+|\s+(?!\S)|\s+").
Definition tests_matches (p : bytes) (u : ustr) : option (list (nat * nat)) :=
  if negb (leqb p split_pattern) then None
  else if leqb u (from_utf32 (str "Hey friend!     How are you?!?")) then Some [(0, 3); (3, 10); (10, 11); (11, 15); (15, 19); (19, 23); (23, 27); (27, 30)]
  else if leqb u (from_utf32 ([37326; 32; 21475; 32; 37324; 32; 20339; 32; 78; 111; 103; 117; 99; 104; 105; 32; 82; 105; 107; 97]%N)) then Some [(0, 1); (1, 3); (3, 5); (5, 7); (7, 15); (15, 20)]
  else if leqb u (from_utf32 (str "Why don't you give 100 dollars?")) then Some [(0, 3); (3, 7); (7, 9); (9, 13); (13, 18); (18, 19); (19, 22); (22, 30); (30, 31)]
  else if leqb u (from_utf32 (str "How are ya doing?")) then Some [(0, 3); (3, 7); (7, 10); (10, 16); (16, 17)]
  else Some [].
Definition tests_env : env := {|
  e_norm := tests_norm; e_is_mn := fun c => existsb (N.eqb c) [769; 772; 776]%N;
  e_iswspace := e_iswspace test_env; e_iswcntrl := e_iswcntrl test_env;
  e_towlower := fun c => match nfind c [(65, 97); (68, 100); (69, 101); (72, 104); (73, 105); (76, 108); (79, 111); (82, 114); (83, 115); (84, 116); (87, 119)]%N with Some d => d | None => c end;
  e_u_space := e_u_space test_env; e_u_punct := e_u_punct test_env; e_icu_matches := tests_matches;
  e_wregex_ok := e_wregex_ok test_env; e_wregex_next := e_wregex_next test_env; e_inplace := true; e_char_signed := true;
  e_draw := e_draw test_env; e_pq := list_pq |}.

(** The helper functions of the tests: read a component from a document and run it. *)
Definition with_some {A B} (o : option A) (f : A -> res B) : res B := match o with Some x => f x | None => Undef NullDeref end.
Definition normalized_by (j : json) (input : res wstr) : res wstr :=
  n <- with_normalizer (S (json_depth j)) j ;; s <- input ;; with_some n (fun n => r <- normalize tests_env n (new_nstring s) ;; Ok (ns_text r)).
Definition cut_by (j : json) (s : wstr) : res (list (bytes * (nat * nat))) :=
  t <- with_pre_tokenizer (S (json_depth j)) j ;; p <- new_pretok (new_nstring s) ;;
  with_some t (fun t => r <- pre_tokenize tests_env t p ;; Ok (map (fun x => (sp_text x, sp_off x)) (pt_splits r))).
Definition tokens_by (j : json) (s : wstr) : res (list token) :=
  m <- with_model j ;; p <- new_pretok (new_nstring s) ;;
  with_some m (fun m => r <- snd (model_tokenize tests_env m p) ;; Ok (sp_tokens (nth 0 (pt_splits r) (mkSplit [] (0, 0) [])))).
Definition decoded_by (j : json) (l : list bytes) : res (list bytes) :=
  d <- with_decoder (S (json_depth j)) j ;; with_some d (fun d => decode_chain d l).
Definition processed_by (j : json) (e : encoding) (add : bool) : res encoding :=
  p <- with_post_processor (S (json_depth j)) j ;; with_some p (fun p => process p e add).
Definition truncated_by (j : json) (e : encoding) : res encoding := o <- get_object j ;; t <- with_truncation o ;; truncate_encoding 10 t e.
Definition padded_by (j : json) (e : encoding) : res encoding := o <- get_object j ;; p <- with_padding o ;; pad_encoding p e.
Definition extracted_by (j : json) (vocab : smap Z) (s : wstr) : res (list (bytes * (nat * nat))) :=
  l <- get_array j ;; a <- with_added_vocabulary l ;; '(a, _) <- av_add_tokens true a (Some vocab) (av_added a) ;;
  '(_, p) <- extract_and_normalize tests_env a None s ;; Ok (map (fun x => (sp_text x, sp_off x)) (pt_splits p)).
Definition encoded_by (j : json) (s : wstr) (add : bool) : res encoding :=
  t <- construct (fun _ => None) (fun _ => Some j) [] (str "{}") ;; snd (encode tests_env 10 t s add).
Definition no_file (path : bytes) : option bytes := None.

(** tests/common.cpp: TEST(CommonTest, ConvertToString) *)
Example CommonTest_ConvertToString : convert_to_string ([72; 101; 108; 108; 111; 44; 32; 19990; 30028; 33]%N) = Ok (str "Hello, 世界!").
Proof. repeat split; vm_compute; reflexivity. Qed.

(** tests/common.cpp: TEST(CommonTest, ConvertFromString) *)
Example CommonTest_ConvertFromString : convert_from_string (str "Hello, 世界!") = Ok ([72; 101; 108; 108; 111; 44; 32; 19990; 30028; 33]%N).
Proof. repeat split; vm_compute; reflexivity. Qed.

Definition SequenceNormalizerTest_Simple_json : json := JObj [((str "type"), JStr (str "Sequence")); ((str "normalizers"), JArr [JObj [((str "type"), JStr (str "Prepend")); ((str "prepend"), JStr (str "▁"))]; JObj [((str "type"), JStr (str "Replace")); ((str "pattern"), JObj [((str "String"), JStr (str " "))]); ((str "content"), JStr (str "▁"))]])].
(** tests/normalizer.cpp: TEST(SequenceNormalizerTest, Simple) *)
Example SequenceNormalizerTest_Simple : normalized_by SequenceNormalizerTest_Simple_json (Ok ([72; 101; 108; 108; 111; 32; 87; 111; 114; 108; 100; 33; 9; 84; 104; 105; 115; 32; 105; 115; 32; 97; 32; 116; 101; 115; 116; 46; 10]%N)) = Ok ([9601; 72; 101; 108; 108; 111; 9601; 87; 111; 114; 108; 100; 33; 9; 84; 104; 105; 115; 9601; 105; 115; 9601; 97; 9601; 116; 101; 115; 116; 46; 10]%N).
Proof. repeat split; vm_compute; reflexivity. Qed.

Definition BertNormalizerTest_CleanText_json : json := JObj [((str "type"), JStr (str "BertNormalizer")); ((str "clean_text"), JBool true); ((str "handle_chinese_chars"), JBool false); ((str "strip_accents"), JNull); ((str "lowercase"), JBool false)].
(** tests/normalizer.cpp: TEST(BertNormalizerTest, CleanText) *)
Example BertNormalizerTest_CleanText : normalized_by BertNormalizerTest_CleanText_json (Ok ([72; 101; 108; 108; 111; 32; 87; 111; 114; 108; 100; 33; 9; 84; 104; 105; 115; 32; 105; 115; 32; 97; 32; 116; 101; 115; 116; 46; 10]%N)) = Ok (str "Hello World! This is a test. ").
Proof. repeat split; vm_compute; reflexivity. Qed.

Definition BertNormalizerTest_HandleChineseChars_json : json := JObj [((str "type"), JStr (str "BertNormalizer")); ((str "clean_text"), JBool false); ((str "handle_chinese_chars"), JBool true); ((str "strip_accents"), JNull); ((str "lowercase"), JBool false)].
(** tests/normalizer.cpp: TEST(BertNormalizerTest, HandleChineseChars) *)
Example BertNormalizerTest_HandleChineseChars : normalized_by BertNormalizerTest_HandleChineseChars_json (Ok ([72; 101; 108; 108; 111; 32; 19990; 30028; 33]%N)) = Ok ([72; 101; 108; 108; 111; 32; 32; 19990; 32; 32; 30028; 32; 33]%N).
Proof. repeat split; vm_compute; reflexivity. Qed.

Definition BertNormalizerTest_StripAccents_json : json := JObj [((str "type"), JStr (str "BertNormalizer")); ((str "clean_text"), JBool false); ((str "handle_chinese_chars"), JBool false); ((str "strip_accents"), JBool true); ((str "lowercase"), JBool false)].
(** tests/normalizer.cpp: TEST(BertNormalizerTest, StripAccents) *)
Example BertNormalizerTest_StripAccents : normalized_by BertNormalizerTest_StripAccents_json (Ok ([72; 233; 108; 108; 243; 32; 87; 243; 114; 108; 100; 33; 32; 84; 104; 239; 115; 32; 239; 115; 32; 225; 32; 116; 233; 115; 116; 46]%N)) = Ok (str "Hello World! This is a test.").
Proof. repeat split; vm_compute; reflexivity. Qed.

Definition BertNormalizerTest_Lowercase_json : json := JObj [((str "type"), JStr (str "BertNormalizer")); ((str "clean_text"), JBool false); ((str "handle_chinese_chars"), JBool false); ((str "strip_accents"), JNull); ((str "lowercase"), JBool true)].
(** tests/normalizer.cpp: TEST(BertNormalizerTest, Lowercase) *)
Example BertNormalizerTest_Lowercase : normalized_by BertNormalizerTest_Lowercase_json (Ok (str "HELLO WORLD! THIS IS A TEST!")) = Ok (str "hello world! this is a test!").
Proof. repeat split; vm_compute; reflexivity. Qed.

Definition PrependNormalizerTest_Simple_json : json := JObj [((str "type"), JStr (str "Prepend")); ((str "prepend"), JStr (str "_"))].
(** tests/normalizer.cpp: TEST(PrependNormalizerTest, Simple) *)
Example PrependNormalizerTest_Simple : normalized_by PrependNormalizerTest_Simple_json (Ok (str "Hello World!")) = Ok (str "_Hello World!").
Proof. repeat split; vm_compute; reflexivity. Qed.

Definition NFCNormalizerTest_Simple_json : json := JObj [((str "type"), JStr (str "NFC"))].
(** tests/normalizer.cpp: TEST(NFCNormalizerTest, Simple) *)
Example NFCNormalizerTest_Simple : normalized_by NFCNormalizerTest_Simple_json (Ok ([97; 769]%N)) = Ok ([225]%N).
Proof. repeat split; vm_compute; reflexivity. Qed.

Definition NFCNormalizerTest_Error_json : json := JObj [((str "type"), JStr (str "NFC"))].
(** tests/normalizer.cpp: TEST(NFCNormalizerTest, Error) *)
Example NFCNormalizerTest_Error : normalized_by NFCNormalizerTest_Error_json (convert_from_string ([105; 110; 118; 97; 108; 105; 100; 255]%N)) = Throw RangeError.
Proof. repeat split; vm_compute; reflexivity. Qed.

Definition NFDNormalizerTest_Simple_json : json := JObj [((str "type"), JStr (str "NFD"))].
(** tests/normalizer.cpp: TEST(NFDNormalizerTest, Simple) *)
Example NFDNormalizerTest_Simple : normalized_by NFDNormalizerTest_Simple_json (Ok ([72; 233; 108; 108; 111; 32; 87; 111; 114; 108; 100; 33]%N)) = Ok ([72; 101; 769; 108; 108; 111; 32; 87; 111; 114; 108; 100; 33]%N).
Proof. repeat split; vm_compute; reflexivity. Qed.

Definition NFDNormalizerTest_Error_json : json := JObj [((str "type"), JStr (str "NFD"))].
(** tests/normalizer.cpp: TEST(NFDNormalizerTest, Error) *)
Example NFDNormalizerTest_Error : normalized_by NFDNormalizerTest_Error_json (convert_from_string ([105; 110; 118; 97; 108; 105; 100; 255]%N)) = Throw RangeError.
Proof. repeat split; vm_compute; reflexivity. Qed.

Definition NFKCNormalizerTest_Simple_json : json := JObj [((str "type"), JStr (str "NFKC"))].
(** tests/normalizer.cpp: TEST(NFKCNormalizerTest, Simple) *)
Example NFKCNormalizerTest_Simple : normalized_by NFKCNormalizerTest_Simple_json (Ok ([64257]%N)) = Ok (str "fi").
Proof. repeat split; vm_compute; reflexivity. Qed.

Definition NFKCNormalizerTest_Error_json : json := JObj [((str "type"), JStr (str "NFKC"))].
(** tests/normalizer.cpp: TEST(NFKCNormalizerTest, Error) *)
Example NFKCNormalizerTest_Error : normalized_by NFKCNormalizerTest_Error_json (convert_from_string ([105; 110; 118; 97; 108; 105; 100; 255]%N)) = Throw RangeError.
Proof. repeat split; vm_compute; reflexivity. Qed.

Definition NFKDNormalizerTest_Simple_json : json := JObj [((str "type"), JStr (str "NFKD"))].
(** tests/normalizer.cpp: TEST(NFKDNormalizerTest, Simple) *)
Example NFKDNormalizerTest_Simple : normalized_by NFKDNormalizerTest_Simple_json (Ok ([72; 233; 108; 108; 111; 32; 87; 111; 114; 108; 100; 33]%N)) = Ok ([72; 101; 769; 108; 108; 111; 32; 87; 111; 114; 108; 100; 33]%N).
Proof. repeat split; vm_compute; reflexivity. Qed.

Definition NFKDNormalizerTest_Error_json : json := JObj [((str "type"), JStr (str "NFKD"))].
(** tests/normalizer.cpp: TEST(NFKDNormalizerTest, Error) *)
Example NFKDNormalizerTest_Error : normalized_by NFKDNormalizerTest_Error_json (convert_from_string ([105; 110; 118; 97; 108; 105; 100; 255]%N)) = Throw RangeError.
Proof. repeat split; vm_compute; reflexivity. Qed.

Definition ReplaceNormalizerTest_ReplaceContent_json : json := JObj [((str "type"), JStr (str "Replace")); ((str "pattern"), JObj [((str "String"), JStr (str " "))]); ((str "content"), JStr (str "▁"))].
(** tests/normalizer.cpp: TEST(ReplaceNormalizerTest, ReplaceContent) *)
Example ReplaceNormalizerTest_ReplaceContent : normalized_by ReplaceNormalizerTest_ReplaceContent_json (Ok (str "Hello World!")) = Ok ([72; 101; 108; 108; 111; 9601; 87; 111; 114; 108; 100; 33]%N).
Proof. repeat split; vm_compute; reflexivity. Qed.

Definition StripNormalizerTest_Simple_json : json := JObj [((str "type"), JStr (str "Strip")); ((str "strip_left"), JBool true); ((str "strip_right"), JBool true)].
(** tests/normalizer.cpp: TEST(StripNormalizerTest, Simple) *)
Example StripNormalizerTest_Simple : normalized_by StripNormalizerTest_Simple_json (Ok (str "  Hello World!  ")) = Ok (str "Hello World!").
Proof. repeat split; vm_compute; reflexivity. Qed.

Definition StripAccentsNormalizerTest_Simple_json : json := JObj [((str "type"), JStr (str "StripAccents"))].
(** tests/normalizer.cpp: TEST(StripAccentsNormalizerTest, Simple) *)
Example StripAccentsNormalizerTest_Simple : normalized_by StripAccentsNormalizerTest_Simple_json (Ok ([101; 772; 772; 772; 111]%N)) = Ok (str "eo").
Proof. repeat split; vm_compute; reflexivity. Qed.

Definition BertPreTokenizerTest_Simple_json : json := JObj [((str "type"), JStr (str "BertPreTokenizer")); ((str "clean_text"), JBool true); ((str "handle_chinese_chars"), JBool false); ((str "strip_accents"), JNull); ((str "lowercase"), JBool false)].
(** tests/pre_tokenizer.cpp: TEST(BertPreTokenizerTest, Simple) *)
Example BertPreTokenizerTest_Simple : cut_by BertPreTokenizerTest_Simple_json (str "Hey friend!     How are you?!?") = Ok [((str "Hey"), (0, 3)); ((str "friend"), (4, 10)); ((str "!"), (10, 11)); ((str "How"), (16, 19)); ((str "are"), (20, 23)); ((str "you"), (24, 27)); ((str "?"), (27, 28)); ((str "!"), (28, 29)); ((str "?"), (29, 30))] /\
  cut_by BertPreTokenizerTest_Simple_json ([37326; 32; 21475; 32; 37324; 32; 20339; 32; 78; 111; 103; 117; 99; 104; 105; 32; 82; 105; 107; 97]%N) = Ok [((str "野"), (0, 1)); ((str "口"), (2, 3)); ((str "里"), (4, 5)); ((str "佳"), (6, 7)); ((str "Noguchi"), (8, 15)); ((str "Rika"), (16, 20))].
Proof. repeat split; vm_compute; reflexivity. Qed.

Definition SplitPreTokenizerTest_Simple_json : json := JObj [((str "type"), JStr (str "Split")); ((str "pattern"), JObj [((str "Regex"), JStr (str "(?i:'s|'t|'re|'ve|'m|'ll|'d)|[^\\r\\n\\p{L}\\p{N}]?\\p{L}+|\\p{N}{1,3}| ?[^\\s\\p{L}\\p{N}]+[\\r\\n]*|\\s*[\\r\\n]+|\\s+(?!\\S)|\\s+"))]); ((str "behavior"), JStr (str "Isolated")); ((str "invert"), JBool false)].
(** tests/pre_tokenizer.cpp: TEST(SplitPreTokenizerTest, Simple) *)
Example SplitPreTokenizerTest_Simple : cut_by SplitPreTokenizerTest_Simple_json (str "Why don't you give 100 dollars?") = Ok [((str "Why"), (0, 3)); ((str " don"), (3, 7)); ((str "'t"), (7, 9)); ((str " you"), (9, 13)); ((str " give"), (13, 18)); ((str " "), (18, 19)); ((str "100"), (19, 22)); ((str " dollars"), (22, 30)); ((str "?"), (30, 31))].
Proof. repeat split; vm_compute; reflexivity. Qed.

Definition ByteLevelPreTokenizerTest_Simple_json : json := JObj [((str "type"), JStr (str "ByteLevel")); ((str "add_prefix_space"), JBool false); ((str "use_regex"), JBool false)].
(** tests/pre_tokenizer.cpp: TEST(ByteLevelPreTokenizerTest, Simple) *)
Example ByteLevelPreTokenizerTest_Simple : cut_by ByteLevelPreTokenizerTest_Simple_json (str "How are ya doing?") = Ok [((str "HowĠareĠyaĠdoing?"), (0, 17))].
Proof. repeat split; vm_compute; reflexivity. Qed.

Definition ByteLevelPreTokenizerTest_AddPrefixSpace_json : json := JObj [((str "type"), JStr (str "ByteLevel")); ((str "add_prefix_space"), JBool true); ((str "use_regex"), JBool false)].
(** tests/pre_tokenizer.cpp: TEST(ByteLevelPreTokenizerTest, AddPrefixSpace) *)
Example ByteLevelPreTokenizerTest_AddPrefixSpace : cut_by ByteLevelPreTokenizerTest_AddPrefixSpace_json (str "How are ya doing?") = Ok [((str "ĠHowĠareĠyaĠdoing?"), (0, 18))].
Proof. repeat split; vm_compute; reflexivity. Qed.

Definition SequencePreTokenizerTest_Simple_json : json := JObj [((str "type"), JStr (str "Sequence")); ((str "pretokenizers"), JArr [JObj [((str "type"), JStr (str "Split")); ((str "pattern"), JObj [((str "Regex"), JStr (str "(?i:'s|'t|'re|'ve|'m|'ll|'d)|[^\\r\\n\\p{L}\\p{N}]?\\p{L}+|\\p{N}{1,3}| ?[^\\s\\p{L}\\p{N}]+[\\r\\n]*|\\s*[\\r\\n]+|\\s+(?!\\S)|\\s+"))]); ((str "behavior"), JStr (str "Isolated")); ((str "invert"), JBool false)]; JObj [((str "type"), JStr (str "ByteLevel")); ((str "add_prefix_space"), JBool false); ((str "trim_offsets"), JBool true); ((str "use_regex"), JBool false)]])].
(** tests/pre_tokenizer.cpp: TEST(SequencePreTokenizerTest, Simple) *)
Example SequencePreTokenizerTest_Simple : cut_by SequencePreTokenizerTest_Simple_json (str "How are ya doing?") = Ok [((str "How"), (0, 3)); ((str "Ġare"), (3, 7)); ((str "Ġya"), (7, 10)); ((str "Ġdoing"), (10, 16)); ((str "?"), (16, 17))].
Proof. repeat split; vm_compute; reflexivity. Qed.

Definition WordPieceModelTest_EmptyVocab_json : json := JObj [((str "type"), JStr (str "WordPiece")); ((str "unk_token"), JStr (str "[UNK]")); ((str "continuing_subword_prefix"), JStr (str "##")); ((str "max_input_chars_per_word"), JInt (100)%Z); ((str "vocab"), JNull)].
(** tests/model.cpp: TEST(WordPieceModelTest, EmptyVocab) *)
Example WordPieceModelTest_EmptyVocab : tokens_by WordPieceModelTest_EmptyVocab_json (str "hello world") = Ok [mkTok (0)%Z ((str "[UNK]")) (0, 11)].
Proof. repeat split; vm_compute; reflexivity. Qed.

Definition WordPieceModelTest_Vocab_json : json := JObj [((str "type"), JStr (str "WordPiece")); ((str "unk_token"), JStr (str "[UNK]")); ((str "continuing_subword_prefix"), JStr (str "##")); ((str "max_input_chars_per_word"), JInt (100)%Z); ((str "vocab"), JObj [((str "hello"), JInt (420)%Z); ((str "[UNK]"), JInt (333)%Z)])].
(** tests/model.cpp: TEST(WordPieceModelTest, Vocab) *)
Example WordPieceModelTest_Vocab : tokens_by WordPieceModelTest_Vocab_json (str "hello world") = Ok [mkTok (333)%Z ((str "[UNK]")) (0, 11)].
Proof. repeat split; vm_compute; reflexivity. Qed.

Definition WordPieceModelTest_UNKToken_json : json := JObj [((str "type"), JStr (str "WordPiece")); ((str "unk_token"), JStr (str "[TEST_UNK]")); ((str "continuing_subword_prefix"), JStr (str "##")); ((str "max_input_chars_per_word"), JInt (100)%Z); ((str "vocab"), JObj [((str "[TEST_UNK]"), JInt (333)%Z)])].
(** tests/model.cpp: TEST(WordPieceModelTest, UNKToken) *)
Example WordPieceModelTest_UNKToken : tokens_by WordPieceModelTest_UNKToken_json (str "hello world") = Ok [mkTok (333)%Z ((str "[TEST_UNK]")) (0, 11)].
Proof. repeat split; vm_compute; reflexivity. Qed.

Definition WordPieceModelTest_MaxInputCharsPerWord_json : json := JObj [((str "type"), JStr (str "WordPiece")); ((str "unk_token"), JStr (str "[UNK]")); ((str "continuing_subword_prefix"), JStr (str "##")); ((str "max_input_chars_per_word"), JInt (10)%Z); ((str "vocab"), JObj [((str "[UNK]"), JInt (333)%Z)])].
(** tests/model.cpp: TEST(WordPieceModelTest, MaxInputCharsPerWord) *)
Example WordPieceModelTest_MaxInputCharsPerWord : tokens_by WordPieceModelTest_MaxInputCharsPerWord_json (str "hello world") = Ok [mkTok (333)%Z ((str "[UNK]")) (0, 11)].
Proof. repeat split; vm_compute; reflexivity. Qed.

Definition WordPieceModelTest_ContinuingSubWordPrefix_json : json := JObj [((str "type"), JStr (str "WordPiece")); ((str "unk_token"), JStr (str "[UNK]")); ((str "continuing_subword_prefix"), JStr (str "TEST_##")); ((str "max_input_chars_per_word"), JInt (100)%Z); ((str "vocab"), JObj [((str "hello"), JInt (420)%Z); ((str "TEST_## world"), JInt (111)%Z)]); ((str "[UNK]"), JInt (333)%Z)].
(** tests/model.cpp: TEST(WordPieceModelTest, ContinuingSubWordPrefix) *)
Example WordPieceModelTest_ContinuingSubWordPrefix : tokens_by WordPieceModelTest_ContinuingSubWordPrefix_json (str "hello world") = Ok [mkTok (420)%Z ((str "hello")) (0, 5); mkTok (111)%Z ((str "TEST_## world")) (5, 11)].
Proof. repeat split; vm_compute; reflexivity. Qed.

Definition BPEModelTest_UNKTokenNotFused_json : json := JObj [((str "type"), JStr (str "BPE")); ((str "dropout"), JNull); ((str "unk_token"), JStr (str "<unk>")); ((str "continuing_subword_prefix"), JNull); ((str "end_of_word_suffix"), JNull); ((str "fuse_unk"), JBool false); ((str "byte_fallback"), JBool false); ((str "ignore_merges"), JBool true); ((str "vocab"), JObj [((str "<unk>"), JInt (0)%Z); ((str "a"), JInt (1)%Z); ((str "b"), JInt (2)%Z)]); ((str "merges"), JArr [])].
(** tests/model.cpp: TEST(BPEModelTest, UNKTokenNotFused) *)
Example BPEModelTest_UNKTokenNotFused : tokens_by BPEModelTest_UNKTokenNotFused_json (str "c") = Ok [mkTok (0)%Z ((str "<unk>")) (0, 1)] /\
  tokens_by BPEModelTest_UNKTokenNotFused_json (str "cc") = Ok [mkTok (0)%Z ((str "<unk>")) (0, 1); mkTok (0)%Z ((str "<unk>")) (1, 2)].
Proof. repeat split; vm_compute; reflexivity. Qed.

Definition BPEModelTest_UNKTokenFused_json : json := JObj [((str "type"), JStr (str "BPE")); ((str "dropout"), JNull); ((str "unk_token"), JStr (str "<unk>")); ((str "continuing_subword_prefix"), JNull); ((str "end_of_word_suffix"), JNull); ((str "fuse_unk"), JBool true); ((str "byte_fallback"), JBool false); ((str "ignore_merges"), JBool true); ((str "vocab"), JObj [((str "<unk>"), JInt (0)%Z); ((str "a"), JInt (1)%Z); ((str "b"), JInt (2)%Z)]); ((str "merges"), JArr [])].
(** tests/model.cpp: TEST(BPEModelTest, UNKTokenFused) *)
Example BPEModelTest_UNKTokenFused : tokens_by BPEModelTest_UNKTokenFused_json (str "c") = Ok [mkTok (0)%Z ((str "<unk>")) (0, 1)] /\
  tokens_by BPEModelTest_UNKTokenFused_json (str "cc") = Ok [mkTok (0)%Z ((str "<unk>")) (0, 2)] /\
  tokens_by BPEModelTest_UNKTokenFused_json (str "accb") = Ok [mkTok (1)%Z ((str "a")) (0, 1); mkTok (0)%Z ((str "<unk>")) (1, 3); mkTok (2)%Z ((str "b")) (3, 4)].
Proof. repeat split; vm_compute; reflexivity. Qed.

Definition BPEModelTest_WithAndWithoutDropout_json : json := JObj [((str "type"), JStr (str "BPE")); ((str "dropout"), JNull); ((str "unk_token"), JNull); ((str "continuing_subword_prefix"), JNull); ((str "end_of_word_suffix"), JNull); ((str "fuse_unk"), JBool false); ((str "byte_fallback"), JBool false); ((str "ignore_merges"), JBool false); ((str "vocab"), JObj [((str "u"), JInt (0)%Z); ((str "n"), JInt (1)%Z); ((str "r"), JInt (2)%Z); ((str "e"), JInt (3)%Z); ((str "l"), JInt (4)%Z); ((str "a"), JInt (5)%Z); ((str "t"), JInt (6)%Z); ((str "d"), JInt (7)%Z); ((str "re"), JInt (8)%Z); ((str "at"), JInt (9)%Z); ((str "ed"), JInt (10)%Z); ((str "un"), JInt (11)%Z); ((str "ated"), JInt (12)%Z); ((str "rel"), JInt (13)%Z); ((str "related"), JInt (14)%Z); ((str "unrelated"), JInt (15)%Z)]); ((str "merges"), JArr [JStr (str "r e"); JStr (str "a t"); JStr (str "e d"); JStr (str "u n"); JStr (str "at ed"); JStr (str "re l"); JStr (str "rel ated"); JStr (str "un related")])].
Definition BPEModelTest_WithAndWithoutDropout_json2 : json := JObj [((str "type"), JStr (str "BPE")); ((str "dropout"), JFloat (QArith_base.Qmake 1 1)); ((str "unk_token"), JNull); ((str "continuing_subword_prefix"), JNull); ((str "end_of_word_suffix"), JNull); ((str "fuse_unk"), JBool false); ((str "byte_fallback"), JBool false); ((str "ignore_merges"), JBool true); ((str "vocab"), JObj [((str "u"), JInt (0)%Z); ((str "n"), JInt (1)%Z); ((str "r"), JInt (2)%Z); ((str "e"), JInt (3)%Z); ((str "l"), JInt (4)%Z); ((str "a"), JInt (5)%Z); ((str "t"), JInt (6)%Z); ((str "d"), JInt (7)%Z); ((str "re"), JInt (8)%Z); ((str "at"), JInt (9)%Z); ((str "ed"), JInt (10)%Z); ((str "un"), JInt (11)%Z); ((str "ated"), JInt (12)%Z); ((str "rel"), JInt (13)%Z); ((str "related"), JInt (14)%Z); ((str "unrelated"), JInt (15)%Z)]); ((str "merges"), JArr [JStr (str "r e"); JStr (str "a t"); JStr (str "e d"); JStr (str "u n"); JStr (str "at ed"); JStr (str "re l"); JStr (str "rel ated"); JStr (str "un related")])].
(** tests/model.cpp: TEST(BPEModelTest, WithAndWithoutDropout) *)
Example BPEModelTest_WithAndWithoutDropout : tokens_by BPEModelTest_WithAndWithoutDropout_json (str "unrelated") = Ok [mkTok (15)%Z ((str "unrelated")) (0, 9)] /\
  tokens_by BPEModelTest_WithAndWithoutDropout_json2 (str "unrelated") = Ok [mkTok (0)%Z ((str "u")) (0, 1); mkTok (1)%Z ((str "n")) (1, 2); mkTok (2)%Z ((str "r")) (2, 3); mkTok (3)%Z ((str "e")) (3, 4); mkTok (4)%Z ((str "l")) (4, 5); mkTok (5)%Z ((str "a")) (5, 6); mkTok (6)%Z ((str "t")) (6, 7); mkTok (3)%Z ((str "e")) (7, 8); mkTok (7)%Z ((str "d")) (8, 9)].
Proof. repeat split; vm_compute; reflexivity. Qed.

Definition WordPieceDecoderTest_Simple_json : json := JObj [((str "type"), JStr (str "WordPiece")); ((str "prefix"), JStr (str "##")); ((str "cleanup"), JBool true)].
(** tests/decoder.cpp: TEST(WordPieceDecoderTest, Simple) *)
Example WordPieceDecoderTest_Simple : decoded_by WordPieceDecoderTest_Simple_json [(str "##uelo"); (str "Ara"); (str "##új"); (str "##o"); (str "No"); (str "##guera")] = Ok [(str "##uelo"); (str " Ara"); (str "új"); (str "o"); (str " No"); (str "guera")].
Proof. repeat split; vm_compute; reflexivity. Qed.

Definition WordPieceDecoderTest_Cleanup_json : json := JObj [((str "type"), JStr (str "WordPiece")); ((str "prefix"), JStr (str "##")); ((str "cleanup"), JBool true)].
(** tests/decoder.cpp: TEST(WordPieceDecoderTest, Cleanup) *)
Example WordPieceDecoderTest_Cleanup : decoded_by WordPieceDecoderTest_Cleanup_json [(str "##uelo"); (str "Ara ?"); (str "##új"); (str "##o"); (str "No ."); (str "##guera")] = Ok [(str "##uelo"); (str " Ara?"); (str "új"); (str "o"); (str " No."); (str "guera")].
Proof. repeat split; vm_compute; reflexivity. Qed.

Definition SequenceDecoderTest_Simple_json : json := JObj [((str "type"), JStr (str "Sequence")); ((str "decoders"), JArr [JObj [((str "type"), JStr (str "WordPiece")); ((str "prefix"), JStr (str "##")); ((str "cleanup"), JBool true)]])].
(** tests/decoder.cpp: TEST(SequenceDecoderTest, Simple) *)
Example SequenceDecoderTest_Simple : decoded_by SequenceDecoderTest_Simple_json [(str "##uelo"); (str "Ara"); (str "##új"); (str "##o"); (str "No"); (str "##guera")] = Ok [(str "##uelo"); (str " Ara"); (str "új"); (str "o"); (str " No"); (str "guera")].
Proof. repeat split; vm_compute; reflexivity. Qed.

Definition ByteLevelDecoderTest_Simple_json : json := JObj [((str "type"), JStr (str "ByteLevel"))].
(** tests/decoder.cpp: TEST(ByteLevelDecoderTest, Simple) *)
Example ByteLevelDecoderTest_Simple : decoded_by ByteLevelDecoderTest_Simple_json [(str "How"); (str "Ġare"); (str "Ġya"); (str "Ġdoing"); (str "?")] = Ok [(str "How are ya doing?")].
Proof. repeat split; vm_compute; reflexivity. Qed.

Definition TemplateProcessingTest_AddSpecialTokens_json : json := JObj [((str "type"), JStr (str "TemplateProcessing")); ((str "single"), JArr [JObj [((str "SpecialToken"), JObj [((str "id"), JStr (str "[CLS]")); ((str "type_id"), JInt (0)%Z)])]; JObj [((str "Sequence"), JObj [((str "id"), JStr (str "A")); ((str "type_id"), JInt (0)%Z)])]; JObj [((str "SpecialToken"), JObj [((str "id"), JStr (str "[SEP]")); ((str "type_id"), JInt (0)%Z)])]]); ((str "pair"), JArr [JObj [((str "SpecialToken"), JObj [((str "id"), JStr (str "[CLS]")); ((str "type_id"), JInt (0)%Z)])]; JObj [((str "Sequence"), JObj [((str "id"), JStr (str "A")); ((str "type_id"), JInt (0)%Z)])]; JObj [((str "SpecialToken"), JObj [((str "id"), JStr (str "[SEP]")); ((str "type_id"), JInt (0)%Z)])]; JObj [((str "Sequence"), JObj [((str "id"), JStr (str "B")); ((str "type_id"), JInt (1)%Z)])]; JObj [((str "SpecialToken"), JObj [((str "id"), JStr (str "[SEP]")); ((str "type_id"), JInt (1)%Z)])]]); ((str "special_tokens"), JObj [((str "[CLS]"), JObj [((str "id"), JStr (str "[CLS]")); ((str "ids"), JArr [JInt (101)%Z]); ((str "tokens"), JArr [JStr (str "[CLS]")])]); ((str "[SEP]"), JObj [((str "id"), JStr (str "[SEP]")); ((str "ids"), JArr [JInt (102)%Z]); ((str "tokens"), JArr [JStr (str "[SEP]")])])])].
(** tests/post_processor.cpp: TEST(TemplateProcessingTest, AddSpecialTokens) *)
Example TemplateProcessingTest_AddSpecialTokens : processed_by TemplateProcessingTest_AddSpecialTokens_json (mkEnc ([12; 14])%Z ([0; 0])%Z [(str "hello"); (str "world")] [Some 0; Some 0] [(0, 5); (6, 11)] ([0; 0])%Z ([1; 1])%Z []) true = Ok (mkEnc ([101; 12; 14; 102])%Z ([0; 0; 0; 0])%Z [(str "[CLS]"); (str "hello"); (str "world"); (str "[SEP]")] [None; Some 0; Some 0; None] [(0, 0); (0, 5); (6, 11); (0, 0)] ([1; 0; 0; 1])%Z ([1; 1; 1; 1])%Z []).
Proof. repeat split; vm_compute; reflexivity. Qed.

Definition TemplateProcessingTest_WithoutSpecialTokens_json : json := JObj [((str "type"), JStr (str "TemplateProcessing")); ((str "single"), JArr [JObj [((str "SpecialToken"), JObj [((str "id"), JStr (str "[CLS]")); ((str "type_id"), JInt (0)%Z)])]; JObj [((str "Sequence"), JObj [((str "id"), JStr (str "A")); ((str "type_id"), JInt (0)%Z)])]; JObj [((str "SpecialToken"), JObj [((str "id"), JStr (str "[SEP]")); ((str "type_id"), JInt (0)%Z)])]]); ((str "pair"), JArr [JObj [((str "SpecialToken"), JObj [((str "id"), JStr (str "[CLS]")); ((str "type_id"), JInt (0)%Z)])]; JObj [((str "Sequence"), JObj [((str "id"), JStr (str "A")); ((str "type_id"), JInt (0)%Z)])]; JObj [((str "SpecialToken"), JObj [((str "id"), JStr (str "[SEP]")); ((str "type_id"), JInt (0)%Z)])]; JObj [((str "Sequence"), JObj [((str "id"), JStr (str "B")); ((str "type_id"), JInt (1)%Z)])]; JObj [((str "SpecialToken"), JObj [((str "id"), JStr (str "[SEP]")); ((str "type_id"), JInt (1)%Z)])]]); ((str "special_tokens"), JObj [((str "[CLS]"), JObj [((str "id"), JStr (str "[CLS]")); ((str "ids"), JArr [JInt (101)%Z]); ((str "tokens"), JArr [JStr (str "[CLS]")])]); ((str "[SEP]"), JObj [((str "id"), JStr (str "[SEP]")); ((str "ids"), JArr [JInt (102)%Z]); ((str "tokens"), JArr [JStr (str "[SEP]")])])])].
(** tests/post_processor.cpp: TEST(TemplateProcessingTest, WithoutSpecialTokens) *)
Example TemplateProcessingTest_WithoutSpecialTokens : processed_by TemplateProcessingTest_WithoutSpecialTokens_json (mkEnc ([12; 14])%Z ([0; 0])%Z [(str "hello"); (str "world")] [Some 0; Some 0] [(0, 5); (6, 11)] ([0; 0])%Z ([1; 1])%Z []) false = Ok (mkEnc ([12; 14])%Z ([0; 0])%Z [(str "hello"); (str "world")] [Some 0; Some 0] [(0, 5); (6, 11)] ([0; 0])%Z ([1; 1])%Z []).
Proof. repeat split; vm_compute; reflexivity. Qed.

Definition ByteLevelProcessingTest_AddPrefixSpace_json : json := JObj [((str "type"), JStr (str "ByteLevel")); ((str "add_prefix_space"), JBool true); ((str "trim_offsets"), JBool false)].
(** tests/post_processor.cpp: TEST(ByteLevelProcessingTest, AddPrefixSpace) *)
Example ByteLevelProcessingTest_AddPrefixSpace : processed_by ByteLevelProcessingTest_AddPrefixSpace_json (mkEnc ([0; 1; 2; 3; 4])%Z ([])%Z [(str "Ġ"); (str "ĠĠĠĠHelloĠĠ"); (str "ĠĠHello"); (str "HelloĠĠ"); (str "ĠĠĠĠ")] [] [(0, 1); (0, 11); (11, 18); (18, 25); (25, 29)] ([])%Z ([])%Z []) false = Ok (mkEnc ([0; 1; 2; 3; 4])%Z ([])%Z [(str "Ġ"); (str "ĠĠĠĠHelloĠĠ"); (str "ĠĠHello"); (str "HelloĠĠ"); (str "ĠĠĠĠ")] [] [(0, 1); (0, 11); (11, 18); (18, 25); (25, 29)] ([])%Z ([])%Z []).
Proof. repeat split; vm_compute; reflexivity. Qed.

Definition ByteLevelProcessingTest_TrimOffsets_json : json := JObj [((str "type"), JStr (str "ByteLevel")); ((str "add_prefix_space"), JBool false); ((str "trim_offsets"), JBool true)].
(** tests/post_processor.cpp: TEST(ByteLevelProcessingTest, TrimOffsets) *)
Example ByteLevelProcessingTest_TrimOffsets : processed_by ByteLevelProcessingTest_TrimOffsets_json (mkEnc ([0; 1; 2; 3; 4])%Z ([])%Z [(str "Ġ"); (str "ĠĠĠĠHelloĠĠ"); (str "ĠĠHello"); (str "HelloĠĠ"); (str "ĠĠĠĠ")] [] [(0, 1); (0, 11); (11, 18); (18, 25); (25, 29)] ([])%Z ([])%Z []) false = Ok (mkEnc ([0; 1; 2; 3; 4])%Z ([])%Z [(str "Ġ"); (str "ĠĠĠĠHelloĠĠ"); (str "ĠĠHello"); (str "HelloĠĠ"); (str "ĠĠĠĠ")] [] [(1, 1); (4, 9); (13, 18); (18, 23); (29, 29)] ([])%Z ([])%Z []).
Proof. repeat split; vm_compute; reflexivity. Qed.

Definition TruncationTest_LongestFirst_json : json := JObj [((str "strategy"), JStr (str "LongestFirst")); ((str "direction"), JStr (str "Right")); ((str "max_length"), JInt (1)%Z); ((str "stride"), JInt (0)%Z)].
(** tests/utils.cpp: TEST(TruncationTest, LongestFirst) *)
Example TruncationTest_LongestFirst : truncated_by TruncationTest_LongestFirst_json (mkEnc ([12; 14])%Z ([0; 0])%Z [(str "hello"); (str "world")] [Some 0; Some 0] [(0, 5); (6, 11)] ([0; 0])%Z ([1; 1])%Z []) = Ok (mkEnc ([12])%Z ([0])%Z [(str "hello")] [Some 0] [(0, 5)] ([0])%Z ([1])%Z [(mkEnc ([14])%Z ([0])%Z [(str "world")] [Some 0] [(6, 11)] ([0])%Z ([1])%Z [])]).
Proof. repeat split; vm_compute; reflexivity. Qed.

Definition TruncationTest_OnlyFirst_json : json := JObj [((str "strategy"), JStr (str "OnlyFirst")); ((str "direction"), JStr (str "Right")); ((str "max_length"), JInt (1)%Z); ((str "stride"), JInt (0)%Z)].
(** tests/utils.cpp: TEST(TruncationTest, OnlyFirst) *)
Example TruncationTest_OnlyFirst : truncated_by TruncationTest_OnlyFirst_json (mkEnc ([12; 14])%Z ([0; 0])%Z [(str "hello"); (str "world")] [Some 0; Some 0] [(0, 5); (6, 11)] ([0; 0])%Z ([1; 1])%Z []) = Ok (mkEnc ([12])%Z ([0])%Z [(str "hello")] [Some 0] [(0, 5)] ([0])%Z ([1])%Z [(mkEnc ([14])%Z ([0])%Z [(str "world")] [Some 0] [(6, 11)] ([0])%Z ([1])%Z [])]).
Proof. repeat split; vm_compute; reflexivity. Qed.

Definition PaddingTest_BatchLongest_json : json := JObj [((str "strategy"), JStr (str "BatchLongest")); ((str "direction"), JStr (str "Right")); ((str "pad_id"), JInt (1)%Z); ((str "pad_type_id"), JInt (1)%Z); ((str "pad_token"), JStr (str "[PAD]")); ((str "pad_to_multiple_of"), JInt (3)%Z)].
(** tests/utils.cpp: TEST(PaddingTest, BatchLongest) *)
Example PaddingTest_BatchLongest : padded_by PaddingTest_BatchLongest_json (mkEnc ([12; 14; 16; 18])%Z ([0; 0; 0; 0])%Z [(str "hello"); (str "world"); (str "from"); (str "tokenizers")] [Some 0; Some 0; Some 0; Some 0] [(0, 5); (6, 11); (12, 16); (17, 27)] ([0; 0; 0; 0])%Z ([1; 1; 1; 1])%Z []) = Ok (mkEnc ([12; 14; 16; 18; 1; 1])%Z ([0; 0; 0; 0; 1; 1])%Z [(str "hello"); (str "world"); (str "from"); (str "tokenizers"); (str "[PAD]"); (str "[PAD]")] [Some 0; Some 0; Some 0; Some 0; Some 0; Some 0] [(0, 5); (6, 11); (12, 16); (17, 27); (0, 0); (0, 0)] ([0; 0; 0; 0; 1; 1])%Z ([1; 1; 1; 1; 0; 0])%Z []).
Proof. repeat split; vm_compute; reflexivity. Qed.

Definition PaddingTest_Fixed_json : json := JObj [((str "strategy"), JObj [((str "Fixed"), JInt (1)%Z)]); ((str "direction"), JStr (str "Right")); ((str "pad_id"), JInt (1)%Z); ((str "pad_type_id"), JInt (1)%Z); ((str "pad_token"), JStr (str "[PAD]")); ((str "pad_to_multiple_of"), JInt (3)%Z)].
(** tests/utils.cpp: TEST(PaddingTest, Fixed) *)
Example PaddingTest_Fixed : padded_by PaddingTest_Fixed_json (mkEnc ([12; 14])%Z ([0; 0])%Z [(str "hello"); (str "world")] [Some 0; Some 0] [(0, 5); (6, 11)] ([0; 0])%Z ([1; 1])%Z []) = Ok (mkEnc ([12; 14; 1])%Z ([0; 0; 1])%Z [(str "hello"); (str "world"); (str "[PAD]")] [Some 0; Some 0; Some 0] [(0, 5); (6, 11); (0, 0)] ([0; 0; 1])%Z ([1; 1; 0])%Z []).
Proof. repeat split; vm_compute; reflexivity. Qed.

Definition AddedVocabularyTest_ExtractAndNormalize_json : json := JArr [JObj [((str "id"), JInt (0)%Z); ((str "content"), JStr (str "[PAD]")); ((str "single_word"), JBool false); ((str "lstrip"), JBool false); ((str "rstrip"), JBool false); ((str "normalized"), JBool false); ((str "special"), JBool true)]; JObj [((str "id"), JInt (100)%Z); ((str "content"), JStr (str "[UNK]")); ((str "single_word"), JBool false); ((str "lstrip"), JBool false); ((str "rstrip"), JBool false); ((str "normalized"), JBool false); ((str "special"), JBool true)]; JObj [((str "id"), JInt (101)%Z); ((str "content"), JStr (str "[CLS]")); ((str "single_word"), JBool false); ((str "lstrip"), JBool false); ((str "rstrip"), JBool false); ((str "normalized"), JBool false); ((str "special"), JBool true)]; JObj [((str "id"), JInt (102)%Z); ((str "content"), JStr (str "[SEP]")); ((str "single_word"), JBool false); ((str "lstrip"), JBool false); ((str "rstrip"), JBool false); ((str "normalized"), JBool false); ((str "special"), JBool true)]; JObj [((str "id"), JInt (103)%Z); ((str "content"), JStr (str "[MASK]")); ((str "single_word"), JBool false); ((str "lstrip"), JBool false); ((str "rstrip"), JBool false); ((str "normalized"), JBool false); ((str "special"), JBool true)]].
(** tests/added_vocabulary.cpp: TEST(AddedVocabularyTest, ExtractAndNormalize) *)
Example AddedVocabularyTest_ExtractAndNormalize : extracted_by AddedVocabularyTest_ExtractAndNormalize_json [((str "[PAD]"), (0)%Z); ((str "[UNK]"), (100)%Z); ((str "[CLS]"), (101)%Z); ((str "[SEP]"), (102)%Z); ((str "[MASK]"), (103)%Z)] (str "[CLS] my name is, SLIM SHADY? [MASK] is my name!") = Ok [((str "[CLS]"), (0, 5)); ((str " my name is, SLIM SHADY? "), (5, 30)); ((str "[MASK]"), (30, 36)); ((str " is my name!"), (36, 48))].
Proof. repeat split; vm_compute; reflexivity. Qed.

Definition TokenizerTest_json : json := JObj [((str "truncation"), JNull); ((str "padding"), JNull); ((str "added_tokens"), JNull); ((str "normalizer"), JNull); ((str "pre_tokenizer"), JNull); ((str "model"), JNull); ((str "post_processor"), JNull); ((str "decoder"), JNull)].
Definition TokenizerTest_json2 : json := JObj [((str "version"), JStr (str "1.0")); ((str "truncation"), JNull); ((str "padding"), JNull); ((str "added_tokens"), JArr [JObj [((str "id"), JInt (0)%Z); ((str "content"), JStr (str "[PAD]")); ((str "single_word"), JBool false); ((str "lstrip"), JBool false); ((str "rstrip"), JBool false); ((str "normalized"), JBool false); ((str "special"), JBool true)]; JObj [((str "id"), JInt (100)%Z); ((str "content"), JStr (str "[UNK]")); ((str "single_word"), JBool false); ((str "lstrip"), JBool false); ((str "rstrip"), JBool false); ((str "normalized"), JBool false); ((str "special"), JBool true)]; JObj [((str "id"), JInt (101)%Z); ((str "content"), JStr (str "[CLS]")); ((str "single_word"), JBool false); ((str "lstrip"), JBool false); ((str "rstrip"), JBool false); ((str "normalized"), JBool false); ((str "special"), JBool true)]; JObj [((str "id"), JInt (102)%Z); ((str "content"), JStr (str "[SEP]")); ((str "single_word"), JBool false); ((str "lstrip"), JBool false); ((str "rstrip"), JBool false); ((str "normalized"), JBool false); ((str "special"), JBool true)]; JObj [((str "id"), JInt (103)%Z); ((str "content"), JStr (str "[MASK]")); ((str "single_word"), JBool false); ((str "lstrip"), JBool false); ((str "rstrip"), JBool false); ((str "normalized"), JBool false); ((str "special"), JBool true)]]); ((str "normalizer"), JObj [((str "type"), JStr (str "BertNormalizer")); ((str "clean_text"), JBool true); ((str "handle_chinese_chars"), JBool true); ((str "strip_accents"), JNull); ((str "lowercase"), JBool true)]); ((str "pre_tokenizer"), JObj [((str "type"), JStr (str "BertPreTokenizer"))]); ((str "post_processor"), JObj [((str "type"), JStr (str "TemplateProcessing")); ((str "single"), JArr [JObj [((str "SpecialToken"), JObj [((str "id"), JStr (str "[CLS]")); ((str "type_id"), JInt (0)%Z)])]; JObj [((str "Sequence"), JObj [((str "id"), JStr (str "A")); ((str "type_id"), JInt (0)%Z)])]; JObj [((str "SpecialToken"), JObj [((str "id"), JStr (str "[SEP]")); ((str "type_id"), JInt (0)%Z)])]]); ((str "pair"), JArr [JObj [((str "SpecialToken"), JObj [((str "id"), JStr (str "[CLS]")); ((str "type_id"), JInt (0)%Z)])]; JObj [((str "Sequence"), JObj [((str "id"), JStr (str "A")); ((str "type_id"), JInt (0)%Z)])]; JObj [((str "SpecialToken"), JObj [((str "id"), JStr (str "[SEP]")); ((str "type_id"), JInt (0)%Z)])]; JObj [((str "Sequence"), JObj [((str "id"), JStr (str "B")); ((str "type_id"), JInt (1)%Z)])]; JObj [((str "SpecialToken"), JObj [((str "id"), JStr (str "[SEP]")); ((str "type_id"), JInt (1)%Z)])]]); ((str "special_tokens"), JObj [((str "[CLS]"), JObj [((str "id"), JStr (str "[CLS]")); ((str "ids"), JArr [JInt (101)%Z]); ((str "tokens"), JArr [JStr (str "[CLS]")])]); ((str "[SEP]"), JObj [((str "id"), JStr (str "[SEP]")); ((str "ids"), JArr [JInt (102)%Z]); ((str "tokens"), JArr [JStr (str "[SEP]")])])])]); ((str "decoder"), JObj [((str "type"), JStr (str "WordPiece")); ((str "prefix"), JStr (str "##")); ((str "cleanup"), JBool true)]); ((str "model"), JObj [((str "type"), JStr (str "WordPiece")); ((str "unk_token"), JStr (str "[UNK]")); ((str "continuing_subword_prefix"), JStr (str "##")); ((str "max_input_chars_per_word"), JInt (100)%Z); ((str "vocab"), JObj [((str "[PAD]"), JInt (0)%Z)])])].
(** tests/tokenizer.cpp: TEST(TokenizerTest, Success) *)
Example TokenizerTest_Success : encoded_by TokenizerTest_json ((str "Hello World!")) true = Ok (mkEnc ([])%Z ([])%Z [] [] [] ([])%Z ([])%Z []) /\
  encoded_by TokenizerTest_json2 ((str "Hello World!")) true = Ok (mkEnc ([101; 0; 0; 0; 102])%Z ([0; 0; 0; 0; 0])%Z [(str "[CLS]"); (str "[UNK]"); (str "[UNK]"); (str "[UNK]"); (str "[SEP]")] [None; Some 0; Some 1; Some 2; None] [(0, 0); (0, 5); (6, 11); (11, 12); (0, 0)] ([1; 0; 0; 0; 1])%Z ([1; 1; 1; 1; 1])%Z []).
Proof. repeat split; vm_compute; reflexivity. Qed.

(** tests/tokenizer.cpp: TEST(TokenizerTest, Error) *)
Example TokenizerTest_Error : construct no_file (fun _ => None) [] [] = Throw InvalidArgument /\
  construct no_file (fun _ => None) (str "invalid-file-path") [] = Throw RuntimeError /\
  construct no_file (fun _ => Some (JObj [])) [] (str "{}") = Throw RuntimeError.
Proof. repeat split; vm_compute; reflexivity. Qed.
