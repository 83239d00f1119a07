(** Specification vocabulary for offsets of encodings. *)
From Verif Require Import Base Unicode Common Normalizer PreTokenizer WordPiece AddedVocab Tokenizer PreSpec AvSpec TzSpec.

(** Piece [sp] is the part [word] of [text] that comes after [pre], and its start is counted in UTF-16 units of [text]. *)
Definition piece_of (text : wstr) (sp : split) (pre word : wstr) : Prop :=
  (exists post, text = pre ++ word ++ post) /\ sp_text sp = utf8_encs word /\ fst (sp_off sp) = units pre.

(** The pre-tokenizers that cut the text without rewriting it, with a regular-expression engine whose matches are in order and never cut a character. *)
Fixpoint cuts_only (E : env) (t : pre_tokenizer) : Prop :=
  match t with
  | TBert => True
  | TSplit pat _ _ => forall cs, forallb valid_cp cs = true -> engine_ok E pat (flat_map utf16_enc cs)
  | TByteLevel _ _ => False
  | TSequence l => (fix go (l : list pre_tokenizer) : Prop := match l with [] => True | q :: r => cuts_only E q /\ go r end) l
  end.
Definition tz_cuts_only (E : env) (t : tokenizer) : Prop := match tz_pre t with Some p => cuts_only E p | None => True end.

(** Position [r] of an encoding is located in [text]: it belongs to the piece with its word index, that piece is the part [word] after [pre], and
    - either its token is the text between its offsets (with the continuation prefix when it does not start the word) and its offsets are inside the word,
    - or it is the unknown token and its offsets are those of the word. *)
Definition located (w : wordpiece) (text : wstr) (pieces : list split) (r : row) : Prop :=
  exists i sp pre word, r_word r = Some i /\ nth_error pieces i = Some sp /\ piece_of text sp pre word /\
  let '(b, e) := piece_span (pre, word) in
  ((b <= fst (r_off r) /\ fst (r_off r) < snd (r_off r) /\ snd (r_off r) <= e /\
    r_token r = (if fst (r_off r) =? b then [] else wp_prefix w) ++ to_utf8 (slice (flat_map utf16_enc text) (fst (r_off r)) (snd (r_off r))) /\
    sfind (r_token r) (wp_vocab w) = Some (r_id r)) \/
   (r_token r = wp_unk w /\ r_off r = (b, e) /\
    r_id r = match sfind (wp_unk w) (wp_vocab w) with Some i => i | None => 0%Z end)).

(** ... and whose matches are never empty. *)
Fixpoint cuts_nonempty (E : env) (t : pre_tokenizer) : Prop :=
  match t with
  | TBert => True
  | TSplit pat _ _ => forall cs, forallb valid_cp cs = true -> engine_ok E pat (flat_map utf16_enc cs) /\
      (forall l, regex_matches E pat (flat_map utf16_enc cs) = Ok l -> Forall (fun m => fst m < snd m) l)
  | TByteLevel _ _ => False
  | TSequence l => (fix go (l : list pre_tokenizer) : Prop := match l with [] => True | q :: r => cuts_nonempty E q /\ go r end) l
  end.
Definition tz_cuts_nonempty (E : env) (t : tokenizer) : Prop := match tz_pre t with Some p => cuts_nonempty E p | None => True end.

(** No added token occurs in the text and the normalizer, if it is used at all, leaves the text alone. *)
Definition quiet (E : env) (t : tokenizer) (s : wstr) : Prop :=
  match tz_av t with
  | None => True
  | Some av => run_norm E (tz_norm t) s = Ok (new_nstring s) /\
               no_added_token (av_trie_raw av) (flat_map utf16_enc s) /\ no_added_token (av_trie_norm av) (flat_map utf16_enc s)
  end.

(** Added tokens without strip and whole-word flags, written in ASCII, none empty. *)
Definition plain_added (av : added_vocab) : Prop :=
  plain_ids (av_map_r av) (av_trie_raw av) /\ plain_ids (av_map_r av) (av_trie_norm av) /\
  Forall (fun p => fst p <> [] /\ Forall (fun b => (b < 128)%N) (fst p)) (av_trie_raw av ++ av_trie_norm av).
