(** The documented format of tokenizer.json, as a rendering of configurations to JSON values (Hugging Face tokenizers serialization), and the
    table of required keys. Independent of Config.v except for the type of JSON values. *)
From Verif Require Import Base Unicode Common Utils PostProcessor Decoder Normalizer PreTokenizer WordPiece Bpe AddedVocab Tokenizer Config EscSpec.

(** ** JSON strings *)
(** the raw text of a JSON string: the quote, the backslash and control characters escaped *)
Definition hex_of (n : N) : N := if (n <? 10)%N then (48 + n)%N else (87 + n)%N.
Definition quote_byte (b : N) : bytes :=
  if ((b =? 34) || (b =? 92))%N then [92%N; b]
  else if (b <? 32)%N then str "\u00" ++ [hex_of (b / 16); hex_of (b mod 16)]
  else [b].
Definition quote (s : bytes) : bytes := flat_map quote_byte s.
(** a text that needs no escaping *)
Definition plain (s : bytes) : Prop := Forall (fun b => b <> 34%N /\ b <> 92%N /\ (32 <= b)%N) s.

Definition jkey (s : String.string) (j : json) : bytes * json := (str s, j).
Definition jname (s : String.string) : json := JStr (str s).
Definition jstr (s : bytes) : json := JStr (quote s).
Definition jint (z : Z) : json := JInt z.
Definition jobj (ty : String.string) (l : list (bytes * json)) : json := JObj (jkey "type" (jname ty) :: l).
Definition jopt {A} (f : A -> json) (o : option A) : json := match o with Some x => f x | None => JNull end.

(** ** Components *)
Definition render_trunc (t : truncation) : json :=
  JObj [jkey "direction" (jname match t_dir t with TRight => "Right" | TLeft => "Left" | TUnknown => "" end);
        jkey "strategy" (jname match t_strat t with LongestFirst => "LongestFirst" | OnlyFirst => "OnlyFirst" | OnlySecond => "OnlySecond" | TSUnknown => "" end);
        jkey "max_length" (jint (t_max t)); jkey "stride" (jint (t_stride t))].
Definition render_pad (p : padding) : json :=
  JObj [jkey "strategy" (match p_strat p with
                         | Fixed => JObj [jkey "Fixed" (jint (p_fixed p))]
                         | BatchLongest => jname "BatchLongest"
                         | PSUnknown => JNull end);
        jkey "direction" (jname match p_dir p with PRight => "Right" | PLeft => "Left" | PUnknown => "" end);
        jkey "pad_to_multiple_of" (if (p_multiple p =? 0)%Z then JNull else jint (p_multiple p));
        jkey "pad_id" (jint (p_id p)); jkey "pad_type_id" (jint (p_type_id p)); jkey "pad_token" (jstr (p_token p))].
Definition render_added (t : added_token) : json :=
  JObj [jkey "id" (jint (at_id t)); jkey "content" (jstr (at_content t)); jkey "single_word" (JBool (at_single_word t)); jkey "lstrip" (JBool (at_lstrip t));
        jkey "rstrip" (JBool (at_rstrip t)); jkey "normalized" (JBool (at_normalized t)); jkey "special" (JBool (at_special t))].

Fixpoint render_norm (n : normalizer) : json :=
  match n with
  | NBert c h s l => jobj "BertNormalizer" [jkey "clean_text" (JBool c); jkey "handle_chinese_chars" (JBool h); jkey "strip_accents" (JBool s); jkey "lowercase" (JBool l)]
  | NForm NFC => jobj "NFC" [] | NForm NFD => jobj "NFD" [] | NForm NFKC => jobj "NFKC" [] | NForm NFKD => jobj "NFKD" []
  | NPrepend p => jobj "Prepend" [jkey "prepend" (jstr p)]
  | NReplace p c => jobj "Replace" [jkey "pattern" (JObj [jkey "String" (jstr p)]); jkey "content" (jstr c)]
  | NStrip l r => jobj "Strip" [jkey "strip_left" (JBool l); jkey "strip_right" (JBool r)]
  | NStripAccents => jobj "StripAccents" []
  | NSequence l => jobj "Sequence" [jkey "normalizers" (JArr (map render_norm l))]
  end.
Fixpoint render_pre (t : pre_tokenizer) : json :=
  match t with
  | TBert => jobj "BertPreTokenizer" []
  | TSplit p b i => jobj "Split" [jkey "pattern" (JObj [jkey "Regex" (jstr p)]); jkey "behavior" (jname match b with ISOLATED => "Isolated" | REMOVED => "Removed" end); jkey "invert" (JBool i)]
  | TByteLevel a r => jobj "ByteLevel" [jkey "add_prefix_space" (JBool a); jkey "trim_offsets" (JBool true); jkey "use_regex" (JBool r)]
  | TSequence l => jobj "Sequence" [jkey "pretokenizers" (JArr (map render_pre l))]
  end.
Fixpoint render_dec (d : decoder) : json :=
  match d with
  | DWordPiece p c => jobj "WordPiece" [jkey "prefix" (jstr p); jkey "cleanup" (JBool c)]
  | DReplace p c => jobj "Replace" [jkey "pattern" (JObj [jkey "String" (jstr p)]); jkey "content" (jstr c)]
  | DByteFallback => jobj "ByteFallback" []
  | DFuse => jobj "Fuse" []
  | DStrip c a b => jobj "Strip" [jkey "content" (jstr c); jkey "start" (jint a); jkey "stop" (jint b)]
  | DByteLevel => jobj "ByteLevel" [jkey "add_prefix_space" (JBool true); jkey "trim_offsets" (JBool true); jkey "use_regex" (JBool true)]
  | DSequence l => jobj "Sequence" [jkey "decoders" (JArr (map render_dec l))]
  end.
Definition render_piece (p : piece) : json := JObj [(pc_kind p, JObj [jkey "id" (jstr (pc_id p)); jkey "type_id" (jint (pc_type p))])].
Definition render_special (s : special_token) : bytes * json :=
  (quote (st_id s), JObj [jkey "id" (jstr (st_id s)); jkey "ids" (JArr (map jint (st_ids s))); jkey "tokens" (JArr (map jstr (st_tokens s)))]).
Fixpoint render_post (p : post_processor) : json :=
  match p with
  | PTemplate single specials => jobj "TemplateProcessing" [jkey "single" (JArr (map render_piece single)); jkey "pair" (JArr []); jkey "special_tokens" (JObj (map render_special specials))]
  | PByteLevel a t => jobj "ByteLevel" [jkey "add_prefix_space" (JBool a); jkey "trim_offsets" (JBool t); jkey "use_regex" (JBool true)]
  | PSequence l => jobj "Sequence" [jkey "processors" (JArr (map render_post l))]
  end.

(** ** Models *)
Inductive model_config :=
| CWordPiece (w : wordpiece)
| CBpe (vocab : smap Z) (merges : list bytes) (dropout : QArith_base.Q) (unk prefix suffix : bytes) (fuse byte_fallback ignore : bool).
Definition render_vocab (v : smap Z) : json := JObj (map (fun p => (quote (fst p), jint (snd p))) v).
Definition render_model (m : model_config) : json :=
  match m with
  | CWordPiece w => jobj "WordPiece" [jkey "unk_token" (jstr (wp_unk w)); jkey "continuing_subword_prefix" (jstr (wp_prefix w)); jkey "max_input_chars_per_word" (jint (wp_max w));
                                      jkey "vocab" (render_vocab (wp_vocab w))]
  | CBpe v ms d u p s fu bf ig => jobj "BPE" [jkey "dropout" (JFloat d); jkey "unk_token" (jstr u); jkey "continuing_subword_prefix" (jstr p); jkey "end_of_word_suffix" (jstr s);
                                      jkey "fuse_unk" (JBool fu); jkey "byte_fallback" (JBool bf); jkey "ignore_merges" (JBool ig); jkey "vocab" (render_vocab v); jkey "merges" (JArr (map jstr ms))]
  end.
(** the model a configuration stands for *)
Definition build_model (m : model_config) : res model :=
  match m with
  | CWordPiece w => Ok (MWordPiece w)
  | CBpe v ms d u p s fu bf ig => b <- new_bpe v ms d u p s fu bf ig ;; Ok (MBpe b [])
  end.

(** ** The whole configuration *)
Record config := mkConfig {
  cf_trunc : option truncation; cf_pad : option padding; cf_added : option (list added_token); cf_norm : option normalizer;
  cf_pre : option pre_tokenizer; cf_model : option model_config; cf_dec : option decoder; cf_post : option post_processor }.
Definition render (c : config) : json :=
  JObj [jkey "version" (jname "1.0"); jkey "truncation" (jopt render_trunc (cf_trunc c)); jkey "padding" (jopt render_pad (cf_pad c));
        jkey "added_tokens" (jopt (fun l => JArr (map render_added l)) (cf_added c)); jkey "normalizer" (jopt render_norm (cf_norm c));
        jkey "pre_tokenizer" (jopt render_pre (cf_pre c)); jkey "post_processor" (jopt render_post (cf_post c)); jkey "decoder" (jopt render_dec (cf_dec c));
        jkey "model" (jopt render_model (cf_model c))].
(** the tokenizer it stands for, before its added tokens are registered *)
Definition build (c : config) : res tokenizer :=
  m <- match cf_model c with Some m => m' <- build_model m ;; Ok (Some m') | None => Ok None end ;;
  Ok (mkTz (cf_trunc c) (cf_pad c) (option_map new_added_vocab (cf_added c)) (cf_norm c) (cf_pre c) m (cf_dec c) (cf_post c)).

(** *** values the format can express *)
Definition int32 (z : Z) : Prop := (-2147483648 <= z <= 2147483647)%Z.
(** vocabulary keys need no escaping and are distinct; ids are 32-bit integers *)
Definition vocab_ok (v : smap Z) : Prop := NoDup (map fst v) /\ Forall (fun p => plain (fst p) /\ int32 (snd p)) v.
Definition model_ok (m : model_config) : Prop :=
  match m with
  | CWordPiece w => vocab_ok (wp_vocab w) /\ int32 (wp_max w)
  | CBpe v _ _ _ _ _ _ _ _ => vocab_ok v
  end.
Definition trunc_ok (t : truncation) : Prop := int32 (t_max t) /\ int32 (t_stride t).
(** only the Fixed strategy has a size *)
Definition pad_ok (p : padding) : Prop :=
  int32 (p_id p) /\ int32 (p_type_id p) /\ int32 (p_multiple p) /\ int32 (p_fixed p) /\ (p_strat p <> Fixed -> p_fixed p = (-1)%Z).
Fixpoint dec_ok (d : decoder) : Prop :=
  match d with
  | DStrip _ a b => int32 a /\ int32 b
  | DSequence l => (fix go l := match l with [] => True | x :: r => dec_ok x /\ go r end) l
  | _ => True
  end.
Fixpoint post_ok (p : post_processor) : Prop :=
  match p with
  | PTemplate single specials => Forall (fun x => int32 (pc_type x)) single /\ Forall (fun s => Forall int32 (st_ids s)) specials
  | PByteLevel _ _ => True
  | PSequence l => (fix go l := match l with [] => True | x :: r => post_ok x /\ go r end) l
  end.
Definition opt_ok {A} (P : A -> Prop) (o : option A) : Prop := match o with Some x => P x | None => True end.
Definition config_ok (c : config) : Prop :=
  opt_ok trunc_ok (cf_trunc c) /\ opt_ok pad_ok (cf_pad c) /\ opt_ok (Forall (fun t => int32 (at_id t))) (cf_added c) /\
  opt_ok model_ok (cf_model c) /\ opt_ok dec_ok (cf_dec c) /\ opt_ok post_ok (cf_post c).

(** ** Required keys *)
(** the value of a key in an object: that of its first occurrence; lacking it *)
Definition has (o : list (bytes * json)) (k : String.string) (j : json) : Prop :=
  exists before after, o = before ++ (str k, j) :: after /\ ~ In (str k) (map fst before).
Definition lacks (o : list (bytes * json)) (k : String.string) : Prop := ~ In (str k) (map fst o).

(** the keys every document must have *)
Definition top_keys : list String.string :=
  ["truncation"; "padding"; "added_tokens"; "normalizer"; "pre_tokenizer"; "model"; "decoder"; "post_processor"].

(** what the value of a key has to be *)
Inductive kind := KStr | KBool | KInt | KNum | KArr | KStrs (* strings *) | KIds (* object of integers *) | KIn (k : String.string) (* object with that string *)
                | KStrategy (* name or object of integers *) | KPieces | KSpecials.
(* a string whose escapes are those of JSON; an integer of 64 bits *)
Definition is_str (v : json) : Prop := exists raw s, v = JStr raw /\ json_string raw s.
Definition is_int (v : json) : Prop := exists z, v = JInt z /\ (- 2 ^ 63 <= z < 2 ^ 63)%Z.
Definition is_obj (P : list (bytes * json) -> Prop) (v : json) : Prop := exists l, v = JObj l /\ P l.
Definition is_arr (P : json -> Prop) (v : json) : Prop := exists l, v = JArr l /\ Forall P l.
Definition with_key (l : list (bytes * json)) (k : String.string) (P : json -> Prop) : Prop := exists v, has l k v /\ P v.
Definition of_kind (k : kind) (v : json) : Prop :=
  match k with
  | KStr => is_str v
  | KBool => exists b, v = JBool b
  | KInt => is_int v
  | KNum => (exists z, v = JInt z) \/ exists q, v = JFloat q
  | KArr => is_arr (fun _ => True) v
  | KStrs => is_arr is_str v
  | KIds => is_obj (Forall (fun p => is_int (snd p))) v
  | KIn k => is_obj (fun l => with_key l k is_str) v
  | KStrategy => is_str v \/ is_obj (Forall (fun p => is_int (snd p))) v
  | KPieces => is_arr (is_obj (Forall (fun p => is_obj (fun l => with_key l "id" is_str /\ with_key l "type_id" is_int) (snd p)))) v
  | KSpecials => is_obj (Forall (fun p => is_obj (fun l => with_key l "id" is_str /\ with_key l "ids" (is_arr is_int) /\ with_key l "tokens" (is_arr is_str)) (snd p))) v
  end.

(** for the components without a "type" *)
Definition required_plain : list (String.string * list (String.string * kind)) :=
  [("truncation", [("direction", KStr); ("strategy", KStr); ("max_length", KInt); ("stride", KInt)]);
   ("padding", [("direction", KStr); ("strategy", KStrategy); ("pad_id", KInt); ("pad_type_id", KInt); ("pad_token", KStr); ("pad_to_multiple_of", KInt)])].
(** for a component under a top key with a "type", the keys it must have *)
Definition required : list (String.string * String.string * list (String.string * kind)) :=
  [("normalizer", "BertNormalizer", [("clean_text", KBool); ("handle_chinese_chars", KBool); ("strip_accents", KBool); ("lowercase", KBool)]);
   ("normalizer", "Prepend", [("prepend", KStr)]); ("normalizer", "Replace", [("pattern", KIn "String"); ("content", KStr)]);
   ("normalizer", "Strip", [("strip_left", KBool); ("strip_right", KBool)]);
   ("pre_tokenizer", "Split", [("pattern", KIn "Regex"); ("behavior", KStr); ("invert", KBool)]);
   ("pre_tokenizer", "ByteLevel", [("add_prefix_space", KBool); ("use_regex", KBool)]);
   ("model", "WordPiece", [("vocab", KIds); ("unk_token", KStr); ("max_input_chars_per_word", KInt); ("continuing_subword_prefix", KStr)]);
   ("model", "BPE", [("vocab", KIds); ("merges", KStrs); ("dropout", KNum); ("unk_token", KStr); ("continuing_subword_prefix", KStr); ("end_of_word_suffix", KStr);
                     ("fuse_unk", KBool); ("byte_fallback", KBool); ("ignore_merges", KBool)]);
   ("decoder", "WordPiece", [("prefix", KStr); ("cleanup", KBool)]); ("decoder", "Strip", [("content", KStr); ("start", KInt); ("stop", KInt)]);
   ("decoder", "Replace", [("pattern", KIn "String"); ("content", KStr)]);
   ("post_processor", "TemplateProcessing", [("single", KPieces); ("pair", KPieces); ("special_tokens", KSpecials)]);
   ("post_processor", "ByteLevel", [("add_prefix_space", KBool); ("trim_offsets", KBool)])].
(** the key of the elements of a Sequence *)
Definition elements : list (String.string * String.string) :=
  [("normalizer", "normalizers"); ("pre_tokenizer", "pretokenizers"); ("decoder", "decoders"); ("post_processor", "processors")].
(** the keys of an added token; all are optional *)
Definition added_keys : list (String.string * kind) :=
  [("id", KInt); ("content", KStr); ("single_word", KBool); ("lstrip", KBool); ("rstrip", KBool); ("normalized", KBool); ("special", KBool)].

(** a key is missing, or its value neither null nor of its kind *)
Definition bad_key (o : list (bytes * json)) (e : String.string * kind) : Prop :=
  lacks o (fst e) \/ exists v, has o (fst e) v /\ v <> JNull /\ ~ of_kind (snd e) v.
Inductive malformed (top : String.string) : json -> Prop :=
| mf_plain o keys : In (top, keys) required_plain -> Exists (bad_key o) keys -> malformed top (JObj o)
| mf_plain_type v keys : In (top, keys) required_plain -> ~ is_obj (fun _ => True) v -> malformed top v
| mf_added_type v : top = "added_tokens" -> ~ is_arr (is_obj (fun _ => True)) v -> malformed top v
| mf_added l o k v e : top = "added_tokens" -> In (JObj o) l -> In (k, v) o -> In e added_keys -> k = str (fst e) -> ~ of_kind (snd e) v -> malformed top (JArr l)
| mf_type v : In top ["normalizer"; "pre_tokenizer"; "model"; "decoder"; "post_processor"] -> ~ is_obj (fun o => with_key o "type" is_str) v -> malformed top v
| mf_keys o name keys : has o "type" (jname name) -> In (top, name, keys) required -> Exists (bad_key o) keys -> malformed top (JObj o)
| mf_seq o key : has o "type" (jname "Sequence") -> In (top, key) elements -> ~ with_key o key (is_arr (fun _ => True)) -> malformed top (JObj o)
| mf_element o key l x : has o "type" (jname "Sequence") -> In (top, key) elements -> has o key (JArr l) -> In x l -> malformed top x -> malformed top (JObj o).
