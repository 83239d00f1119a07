(** How calls can end: what has to be there for an exception, undefined behaviour or an endless loop. *)
From Verif Require Import Base Unicode Common Utils PostProcessor Decoder Normalizer PreTokenizer WordPiece Bpe AddedVocab Tokenizer.

(** [q] is [n] or a part of the sequence [n], at any depth. *)
Inductive norm_part (q : normalizer) : normalizer -> Prop :=
| np_here : norm_part q q
| np_in x l : In x l -> norm_part q x -> norm_part q (NSequence l).
Inductive pre_part (q : pre_tokenizer) : pre_tokenizer -> Prop :=
| pp_here : pre_part q q
| pp_in x l : In x l -> pre_part q x -> pre_part q (TSequence l).

(** The normalizer of [t] is used (there is an added vocabulary) and has the part [q]. *)
Definition normalizes_with (t : tokenizer) (q : normalizer) : Prop := exists av n, tz_av t = Some av /\ tz_norm t = Some n /\ norm_part q n.
Definition cuts_with (t : tokenizer) (q : pre_tokenizer) : Prop := exists n, tz_pre t = Some n /\ pre_part q n.

(** ICU normalization and towlower map Unicode scalar values to Unicode scalar values. *)
Definition scalar_env (E : env) : Prop :=
  (forall f w r, forallb valid_cp w = true -> e_norm E f w = Some r -> forallb valid_cp r = true) /\ (forall c, valid_cp c = true -> valid_cp (e_towlower E c) = true).

(** std::wregex_iterator moves on: a match starts at or after the position searched from and lies in the text; after an empty match the next one ends further on. *)
Definition regex_progress (E : env) : Prop :=
  forall pat text from we pos len, e_wregex_next E pat text from we = Some (pos, len) -> from <= pos /\ pos + len <= length text /\ (we = true -> from < pos + len).

(** The model of [t], if it is BPE, was built by the constructor and its cache filled by calls. *)
Definition built_model (E : env) (reach : bpe -> cache -> Prop) (t : tokenizer) : Prop :=
  forall b c, tz_model t = Some (MBpe b c) -> reach b c /\ exists vocab merges d unk pre suf fu bf ig, new_bpe vocab merges d unk pre suf fu bf ig = Ok b.

(** The exceptions encode can throw, each with what must be the case. *)
Inductive may_throw (E : env) (t : tokenizer) (s : wstr) : exn -> Prop :=
| throw_text c : In c s -> valid_cp c = false -> may_throw E t s RangeError                                     (* not a Unicode scalar value *)
| throw_prepend b : normalizes_with t (NPrepend b) -> In None (utf8_dec b) -> may_throw E t s RangeError        (* a configured string is not UTF-8 *)
| throw_pattern p c b : normalizes_with t (NReplace p c) -> b = p \/ b = c -> In None (utf8_dec b) -> may_throw E t s RangeError
| throw_form f w : normalizes_with t (NForm f) -> e_norm E f w = None -> may_throw E t s RuntimeError            (* ICU fails *)
| throw_bert cl ch st lo w : normalizes_with t (NBert cl ch st lo) -> st || lo = true -> e_norm E NFD w = None -> may_throw E t s RuntimeError
| throw_regex p c w : normalizes_with t (NReplace p c) -> convert_from_string p = Ok w -> e_wregex_ok E w = false -> may_throw E t s RegexError
| throw_padding p : tz_pad t = Some p -> p_strat p = Fixed -> (p_fixed p < 0)%Z -> p_dir p <> PUnknown -> may_throw E t s LengthError
| throw_added av : tz_av t = Some av -> av_trie_norm av ++ av_trie_raw av <> [] -> may_throw E t s OutOfRange     (* a configured added token is in the vocabulary *)
| throw_empty rx : cuts_with t (TByteLevel true rx) -> s = [] -> may_throw E t s OutOfRange
| throw_byte aps rx : cuts_with t (TByteLevel aps rx) -> e_char_signed E = true -> may_throw E t s OutOfRange.

(** The kinds of undefined behaviour. *)
Inductive may_undef (E : env) (t : tokenizer) (s : wstr) : ub -> Prop :=
| undef_pattern pat b inv u : cuts_with t (TSplit pat b inv) -> e_icu_matches E pat u = None -> may_undef E t s NullDeref           (* the pattern does not compile *)
| undef_replace p c w : normalizes_with t (NReplace p c) -> convert_from_string c = Ok w -> (e_inplace E = false \/ length w <> 1) -> may_undef E t s IterInvalidated
| undef_index : may_undef E t s OobIndex.
