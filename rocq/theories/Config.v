(** Reading tokenizer.json: src/tokenizer.cpp:24-90 (constructor) and the with_* functions.
    The JSON text itself is parsed by simdjson, which is not modelled: a document is the value its text stands for. In a value, a string or an
    object key is kept as the raw text between its quotes (escapes not yet resolved), because the code reads some strings raw.
    Simplifications: the document is well formed as a whole (simdjson's on-demand parser would also accept errors in parts it never visits);
    an object lookup returns the first field with that raw key (they agree on documents without duplicate keys). *)
From Verif Require Import Base Unicode Common Utils PostProcessor Decoder Normalizer PreTokenizer WordPiece Bpe AddedVocab Tokenizer.

(** the document of tokenizer.cpp:40-41 (parser.iterate) *)
Inductive json :=
| JNull
| JBool (b : bool)
| JInt (z : Z)                        (* a number without fraction or exponent *)
| JFloat (q : QArith_base.Q)          (* any other number *)
| JStr (raw : bytes)
| JArr (l : list json)
| JObj (l : list (bytes * json)).

(** ** simdjson accessors used by the code; every failure is a simdjson_error *)
(** RFC 8259 string escapes, as simdjson resolves them in get_string() (e.g. model.cpp:39, normalizer.cpp:72); None = invalid string *)
Definition hex_digit (b : N) : option N :=
  (if (48 <=? b) && (b <=? 57) then Some (b - 48)
   else if (97 <=? b) && (b <=? 102) then Some (b - 87)
   else if (65 <=? b) && (b <=? 70) then Some (b - 55) else None)%N.
(** part of get_string(): four hexadecimal digits (used by e.g. model.cpp:39, normalizer.cpp:72) *)
Definition hex4 (s : bytes) : option (N * bytes) :=
  match s with
  | a :: b :: c :: d :: r =>
    match hex_digit a, hex_digit b, hex_digit c, hex_digit d with
    | Some a, Some b, Some c, Some d => Some ((((a * 16 + b) * 16 + c) * 16 + d)%N, r)
    | _, _, _, _ => None
    end
  | _ => None
  end.
(** part of get_string(): two-character escapes (used by e.g. model.cpp:39, normalizer.cpp:72) *)
Definition simple_escape (b : N) : option N :=
  (if b =? 34 then Some 34 else if b =? 92 then Some 92 else if b =? 47 then Some 47 else if b =? 98 then Some 8
   else if b =? 102 then Some 12 else if b =? 110 then Some 10 else if b =? 114 then Some 13 else if b =? 116 then Some 9 else None)%N.
(** part of get_string(): all escapes of a string (used by e.g. model.cpp:39, normalizer.cpp:72) *)
Fixpoint unescape_fuel (fuel : nat) (s : bytes) : option bytes :=
  match fuel with
  | O => None
  | S f =>
    match s with
    | [] => Some []
    | x :: r =>
      if negb (x =? 92)%N then option_map (cons x) (unescape_fuel f r)
      else match r with
           | [] => None
           | e :: r' =>
             if (e =? 117)%N then
               match hex4 r' with
               | None => None
               | Some (c, r2) =>
                 if ((0xD800 <=? c) && (c <? 0xDC00))%N then
                   match r2 with
                   | b1 :: b2 :: r3 =>
                     if ((b1 =? 92) && (b2 =? 117))%N then
                       match hex4 r3 with
                       | Some (d, r4) => if ((0xDC00 <=? d) && (d <? 0xE000))%N
                                         then option_map (app (utf8_of_cp (0x10000 + (c - 0xD800) * 0x400 + (d - 0xDC00))%N)) (unescape_fuel f r4)
                                         else None
                       | None => None
                       end
                     else None
                   | _ => None
                   end
                 else if ((0xDC00 <=? c) && (c <? 0xE000))%N then None
                 else option_map (app (utf8_of_cp c)) (unescape_fuel f r2)
               end
             else match simple_escape e with
                  | Some y => option_map (cons y) (unescape_fuel f r')
                  | None => None
                  end
           end
    end
  end.
(** part of get_string() (used by e.g. model.cpp:39, normalizer.cpp:72); one unit of fuel per byte is enough *)
Definition unescape (s : bytes) : option bytes := unescape_fuel (S (length s)) s.

(** get_string(): model.cpp:39-95, normalizer.cpp:72-114, decoder.cpp:41-88, pre_tokenizer.cpp:53-81, post_processor.cpp:46-101, utils.cpp:144-277, added_vocabulary.cpp:335 *)
Definition get_string (j : json) : res bytes :=
  match j with JStr raw => match unescape raw with Some s => Ok s | None => Throw SimdjsonError end | _ => Throw SimdjsonError end.
(** get_bool(): model.cpp:95-103, normalizer.cpp:120-144, decoder.cpp:64, pre_tokenizer.cpp:85-96, post_processor.cpp:127-131, added_vocabulary.cpp:337-345 *)
Definition get_bool (j : json) : res bool := match j with JBool b => Ok b | _ => Throw SimdjsonError end.
(** static_cast<int>(int64_t): modulo 2^32 *)
(** the conversion int64_t -> int of the lines below *)
Definition to_int (z : Z) : Z := ((z + 2147483648) mod 4294967296 - 2147483648)%Z.
(** static_cast<int>(get_int64()) *)
(** model.cpp:55, utils.cpp:153-157, 259-281, 293, post_processor.cpp:60, 77, 94, added_vocabulary.cpp:332, decoder.cpp:93 *)
Definition get_int (j : json) : res Z :=
  match j with
  | JInt z => if ((-9223372036854775808 <=? z) && (z <=? 9223372036854775807))%Z then Ok (to_int z) else Throw SimdjsonError
  | _ => Throw SimdjsonError
  end.
(** static_cast<float>(get_double()). Simplification: no rounding. *)
(** model.cpp:76-81 (dropout) *)
Definition get_float (j : json) : res QArith_base.Q :=
  match j with JInt z => Ok (QArith_base.inject_Z z) | JFloat q => Ok q | _ => Throw SimdjsonError end.
(** get_array(): tokenizer.cpp:55, normalizer.cpp:75, pre_tokenizer.cpp:58, decoder.cpp:44, post_processor.cpp:51, 68, 92, 98, 110, model.cpp:67 *)
Definition get_array (j : json) : res (list json) := match j with JArr l => Ok l | _ => Throw SimdjsonError end.
(** get_object(): tokenizer.cpp:45-50, normalizer.cpp:79, pre_tokenizer.cpp:62, post_processor.cpp:53, 85, 114, added_vocabulary.cpp:327, utils.cpp:255 *)
Definition get_object (j : json) : res (list (bytes * json)) := match j with JObj l => Ok l | _ => Throw SimdjsonError end.
(** object["key"].value(): keys are compared raw; NO_SUCH_FIELD otherwise *)
(** lookup of a key, e.g. tokenizer.cpp:43-81, normalizer.cpp:72-144 *)
Definition field (o : list (bytes * json)) (k : String.string) : res json :=
  match find (fun p => leqb (fst p) (str k)) o with Some p => Ok (snd p) | None => Throw SimdjsonError end.
(** value["key"].value() *)
(** lookup of a key in a nested object, e.g. post_processor.cpp:59-60, 89-101, normalizer.cpp:109 *)
Definition subfield (j : json) (k : String.string) : res json := o <- get_object j ;; field o k.

(** the recurring pattern: null means the default *)
(** val.type() == null ? default : get, e.g. model.cpp:48-103, utils.cpp:140-157 *)
Definition or_default {A} (d : A) (get : json -> res A) (j : json) : res A := match j with JNull => Ok d | _ => get j end.
(** e.g. model.cpp:48-60, utils.cpp:140-149 *)
Definition str_field o k := j <- field o k ;; or_default [] get_string j.
(** e.g. model.cpp:53-57, utils.cpp:150-157 *)
Definition int_field o k := j <- field o k ;; or_default 0%Z get_int j.
(** e.g. model.cpp:92-103, normalizer.cpp:117-144 *)
Definition bool_field o k := j <- field o k ;; or_default false get_bool j.

(** ** utils.cpp *)
(** utils.cpp:137-160 with_truncation *)
Definition with_truncation (o : list (bytes * json)) : res truncation :=
  d <- str_field o "direction" ;; s <- str_field o "strategy" ;; m <- int_field o "max_length" ;; st <- int_field o "stride" ;;
  Ok (mkTrunc (get_truncation_direction d) (get_truncation_strategy s) m st).

(** utils.cpp:250-264: the padding strategy and its fixed size *)
Definition padding_strategy (j : json) : res (bytes * Z) :=
  match j with
  | JNull => Ok ([], (-1)%Z)
  | JObj l => foldM (fun _ p => n <- get_int (snd p) ;; Ok (fst p, n)) ([], (-1)%Z) l
  | _ => s <- get_string j ;; Ok (s, (-1)%Z)
  end.
(** utils.cpp:242-285 with_padding *)
Definition with_padding (o : list (bytes * json)) : res padding :=
  d <- str_field o "direction" ;;
  sj <- field o "strategy" ;; '(s, fixed) <- padding_strategy sj ;;
  i <- int_field o "pad_id" ;; ti <- int_field o "pad_type_id" ;; t <- str_field o "pad_token" ;; m <- int_field o "pad_to_multiple_of" ;;
  Ok (mkPad (get_padding_direction d) (get_padding_strategy s) fixed i ti t m).

(** utils.cpp:287-296 get_map_ints_from_json: escaped_key() is the raw key; insert keeps the first of equal keys *)
Definition get_map_ints_from_json (o : list (bytes * json)) : res (smap Z) :=
  foldM (fun m p => n <- get_int (snd p) ;; Ok (sinsert (fst p) n m)) [] o.

(** ** added_vocabulary.cpp:329-346: one key of an added token *)
Definition added_token_key (t : added_token) (p : bytes * json) : res added_token :=
  let '(k, j) := p in
  if leqb k (str "id") then n <- get_int j ;; Ok (mkAt n (at_content t) (at_single_word t) (at_lstrip t) (at_rstrip t) (at_normalized t) (at_special t))
  else if leqb k (str "content") then s <- get_string j ;; Ok (mkAt (at_id t) s (at_single_word t) (at_lstrip t) (at_rstrip t) (at_normalized t) (at_special t))
  else if leqb k (str "single_word") then b <- get_bool j ;; Ok (mkAt (at_id t) (at_content t) b (at_lstrip t) (at_rstrip t) (at_normalized t) (at_special t))
  else if leqb k (str "lstrip") then b <- get_bool j ;; Ok (mkAt (at_id t) (at_content t) (at_single_word t) b (at_rstrip t) (at_normalized t) (at_special t))
  else if leqb k (str "rstrip") then b <- get_bool j ;; Ok (mkAt (at_id t) (at_content t) (at_single_word t) (at_lstrip t) b (at_normalized t) (at_special t))
  else if leqb k (str "normalized") then b <- get_bool j ;; Ok (mkAt (at_id t) (at_content t) (at_single_word t) (at_lstrip t) (at_rstrip t) b (at_special t))
  else if leqb k (str "special") then b <- get_bool j ;; Ok (mkAt (at_id t) (at_content t) (at_single_word t) (at_lstrip t) (at_rstrip t) (at_normalized t) b)
  else Ok t.
(** added_vocabulary.cpp:323-351 with_added_vocabulary *)
Definition with_added_vocabulary (l : list json) : res added_vocab :=
  toks <- mapM (fun j => o <- get_object j ;; foldM added_token_key default_added_token o) l ;;
  Ok (new_added_vocab toks).

(** ** Components. [None] is a null pointer. *)
(** the elements of a Sequence: null components are dropped *)
(** normalizer.cpp:74-86, pre_tokenizer.cpp:57-69, decoder.cpp:43-54, post_processor.cpp:109-121: null components are dropped *)
Definition with_list {A} (with_one : json -> res (option A)) (l : list json) : res (list A) :=
  r <- mapM with_one l ;; Ok (flat_map (fun o => match o with Some x => [x] | None => [] end) r).

(** normalizer.cpp:23-43, 68-150 with_normalizer. [fuel] bounds the nesting of Sequence (see [json_depth]). *)
Fixpoint with_normalizer (fuel : nat) (j : json) : res (option normalizer) :=
  match fuel with
  | O => Diverge
  | S f =>
    o <- get_object j ;;
    tj <- field o "type" ;; ty <- get_string tj ;;
    if leqb ty (str "Sequence") then
      a <- field o "normalizers" ;; l <- get_array a ;; ns <- with_list (with_normalizer f) l ;; Ok (Some (NSequence ns))
    else if leqb ty (str "NFC") then Ok (Some (NForm NFC))
    else if leqb ty (str "NFD") then Ok (Some (NForm NFD))
    else if leqb ty (str "NFKC") then Ok (Some (NForm NFKC))
    else if leqb ty (str "NFKD") then Ok (Some (NForm NFKD))
    else if leqb ty (str "Prepend") then p <- str_field o "prepend" ;; Ok (Some (NPrepend p))
    else if leqb ty (str "Replace") then
      pj <- field o "pattern" ;; p <- or_default [] (fun j => s <- subfield j "String" ;; get_string s) pj ;;
      c <- str_field o "content" ;; Ok (Some (NReplace p c))
    else if leqb ty (str "BertNormalizer") then
      c <- bool_field o "clean_text" ;; h <- bool_field o "handle_chinese_chars" ;; s <- bool_field o "strip_accents" ;; l <- bool_field o "lowercase" ;;
      Ok (Some (NBert c h s l))
    else if leqb ty (str "Strip") then l <- bool_field o "strip_left" ;; r <- bool_field o "strip_right" ;; Ok (Some (NStrip l r))
    else if leqb ty (str "StripAccents") then Ok (Some NStripAccents)
    else Ok None
  end.

(** pre_tokenizer.cpp:22-42, 49-101 with_pre_tokenizer *)
Fixpoint with_pre_tokenizer (fuel : nat) (j : json) : res (option pre_tokenizer) :=
  match fuel with
  | O => Diverge
  | S f =>
    o <- get_object j ;;
    tj <- field o "type" ;; ty <- get_string tj ;;
    if leqb ty (str "BertPreTokenizer") then Ok (Some TBert)
    else if leqb ty (str "Sequence") then
      a <- field o "pretokenizers" ;; l <- get_array a ;; ts <- with_list (with_pre_tokenizer f) l ;; Ok (Some (TSequence ts))
    else if leqb ty (str "Split") then
      pj <- field o "pattern" ;; p <- or_default [] (fun j => s <- subfield j "Regex" ;; get_string s) pj ;;
      b <- str_field o "behavior" ;; i <- bool_field o "invert" ;; Ok (Some (TSplit p (get_split_delimiter_behavior b) i))
    else if leqb ty (str "ByteLevel") then a <- bool_field o "add_prefix_space" ;; r <- bool_field o "use_regex" ;; Ok (Some (TByteLevel a r))
    else Ok None
  end.

(** decoder.cpp:17-36, 38-103 with_decoder *)
Fixpoint with_decoder (fuel : nat) (j : json) : res (option decoder) :=
  match fuel with
  | O => Diverge
  | S f =>
    o <- get_object j ;;
    tj <- field o "type" ;; ty <- get_string tj ;;
    if leqb ty (str "Sequence") then
      a <- field o "decoders" ;; l <- get_array a ;; ds <- with_list (with_decoder f) l ;; Ok (Some (DSequence ds))
    else if leqb ty (str "WordPiece") then p <- str_field o "prefix" ;; c <- bool_field o "cleanup" ;; Ok (Some (DWordPiece p c))
    else if leqb ty (str "Strip") then
      c <- str_field o "content" ;; a <- int_field o "start" ;; b <- int_field o "stop" ;; Ok (Some (DStrip c a b))
    else if leqb ty (str "Replace") then
      pj <- field o "pattern" ;; p <- or_default [] (fun j => s <- subfield j "String" ;; get_string s) pj ;;
      c <- str_field o "content" ;; Ok (Some (DReplace p c))
    else if leqb ty (str "ByteFallback") then Ok (Some DByteFallback)
    else if leqb ty (str "Fuse") then Ok (Some DFuse)
    else if leqb ty (str "ByteLevel") then Ok (Some DByteLevel)
    else Ok None
  end.

(** post_processor.cpp:53-62 (and 70-79): the pieces of one element of "single" / "pair"; the key is read raw *)
Definition template_pieces (j : json) : res (list piece) :=
  o <- get_object j ;;
  mapM (fun p => ij <- subfield (snd p) "id" ;; i <- get_string ij ;; tj <- subfield (snd p) "type_id" ;; t <- get_int tj ;; Ok (mkPiece (fst p) i t)) o.
(** post_processor.cpp:49-63, 66-80: "single" and "pair" *)
Definition template_list (j : json) : res (list piece) :=
  or_default [] (fun j => l <- get_array j ;; ps <- mapM template_pieces l ;; Ok (concat ps)) j.
(** post_processor.cpp:86-104: one special token *)
Definition template_special (p : bytes * json) : res special_token :=
  ij <- subfield (snd p) "id" ;; i <- get_string ij ;;
  idsj <- subfield (snd p) "ids" ;; idsl <- get_array idsj ;; ids <- mapM get_int idsl ;;
  tj <- subfield (snd p) "tokens" ;; tl <- get_array tj ;; ts <- mapM get_string tl ;;
  Ok (mkSpecial i ids ts).
(** post_processor.cpp:19-32, 42-136 with_post_processor *)
Fixpoint with_post_processor (fuel : nat) (j : json) : res (option post_processor) :=
  match fuel with
  | O => Diverge
  | S f =>
    o <- get_object j ;;
    tj <- field o "type" ;; ty <- get_string tj ;;
    if leqb ty (str "TemplateProcessing") then
      sj <- field o "single" ;; single <- template_list sj ;;
      pj <- field o "pair" ;; _ <- template_list pj ;;
      tj <- field o "special_tokens" ;; specials <- or_default [] (fun j => l <- get_object j ;; mapM template_special l) tj ;;
      Ok (Some (PTemplate single specials))
    else if leqb ty (str "Sequence") then
      a <- field o "processors" ;; l <- get_array a ;; ps <- with_list (with_post_processor f) l ;; Ok (Some (PSequence ps))
    else if leqb ty (str "ByteLevel") then a <- bool_field o "add_prefix_space" ;; t <- bool_field o "trim_offsets" ;; Ok (Some (PByteLevel a t))
    else Ok None
  end.

(** model.cpp:22-108 with_model *)
Definition with_model (j : json) : res (option model) :=
  o <- get_object j ;;
  tj <- field o "type" ;; ty <- get_string tj ;;
  vj <- field o "vocab" ;; vocab <- or_default [] (fun j => l <- get_object j ;; get_map_ints_from_json l) vj ;;
  if leqb ty (str "WordPiece") then
    u <- str_field o "unk_token" ;; m <- int_field o "max_input_chars_per_word" ;; p <- str_field o "continuing_subword_prefix" ;;
    Ok (Some (MWordPiece (mkWp vocab u m p)))
  else if leqb ty (str "BPE") then
    mj <- field o "merges" ;; merges <- or_default [] (fun j => l <- get_array j ;; mapM get_string l) mj ;;
    dj <- field o "dropout" ;; d <- or_default (QArith_base.Qmake 0 1) get_float dj ;;
    u <- str_field o "unk_token" ;; p <- str_field o "continuing_subword_prefix" ;; s <- str_field o "end_of_word_suffix" ;;
    fu <- bool_field o "fuse_unk" ;; bf <- bool_field o "byte_fallback" ;; ig <- bool_field o "ignore_merges" ;;
    b <- new_bpe vocab merges d u p s fu bf ig ;; Ok (Some (MBpe b []))
  else Ok None.

(** nesting depth of a value: a bound for the recursion of the with_* functions *)
(** models no code: a bound for the recursion of with_normalizer (normalizer.cpp:68) and its siblings *)
Fixpoint json_depth (j : json) : nat :=
  match j with
  | JArr l => S ((fix go (l : list json) : nat := match l with [] => 0 | x :: r => Nat.max (json_depth x) (go r) end) l)
  | JObj l => S ((fix go (l : list (bytes * json)) : nat := match l with [] => 0 | (_, x) :: r => Nat.max (json_depth x) (go r) end) l)
  | _ => 0
  end.

(** tokenizer.cpp:43-81: the fields of the document. [is_null()] on a missing field throws. *)
Definition component {A} (o : list (bytes * json)) (k : String.string) (get : json -> res (option A)) : res (option A) :=
  j <- field o k ;; or_default None get j.
(** tokenizer.cpp:43-82 *)
Definition read_config (doc : json) : res tokenizer :=
  let n := S (json_depth doc) in
  o <- get_object doc ;;
  tr <- component o "truncation" (fun j => l <- get_object j ;; t <- with_truncation l ;; Ok (Some t)) ;;
  pd <- component o "padding" (fun j => l <- get_object j ;; p <- with_padding l ;; Ok (Some p)) ;;
  av <- component o "added_tokens" (fun j => l <- get_array j ;; a <- with_added_vocabulary l ;; Ok (Some a)) ;;
  no <- component o "normalizer" (with_normalizer n) ;;
  pt <- component o "pre_tokenizer" (with_pre_tokenizer n) ;;
  md <- component o "model" with_model ;;
  de <- component o "decoder" (with_decoder n) ;;
  pp <- component o "post_processor" (with_post_processor n) ;;
  Ok (mkTz tr pd av no pt md de pp).

(** tokenizer.cpp:33-85: try { ... } catch (const std::exception&) { throw std::runtime_error } *)
Definition catch_all {A} (r : res A) : res A := match r with Throw _ => Throw RuntimeError | _ => r end.

(** tokenizer.cpp:24-90 Tokenizer::Tokenizer. [load] reads a file (None: cannot be read), [parse] is simdjson's parser (None: not JSON);
    both failures are simdjson_errors. *)
Definition construct (load : bytes -> option bytes) (parse : bytes -> option json) (path config : bytes) : res tokenizer :=
  if is_nil path && is_nil config then Throw InvalidArgument
  else
    t <- catch_all (
      text <- (if negb (is_nil path) then match load (path ++ str "/tokenizer.json") with Some s => Ok s | None => Throw SimdjsonError end else Ok config) ;;
      doc <- match parse text with Some j => Ok j | None => Throw SimdjsonError end ;;
      read_config doc) ;;
    finish_construction t.
