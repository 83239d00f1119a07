(** The reference tokenization of BERT-style WordPiece tokenizers, written without the model: words, then greedy longest match in every word. *)
From Verif Require Import Base Unicode Common WordPiece PreSpec WpSpec TzSpec.

(** [bert_split sp pu pos s l]: the words of the text [s] whose first character is at position [pos] (in UTF-16 units), with their positions. White space separates
    words, every punctuation character is a word of its own, and all other characters form maximal words. *)
Inductive bert_split (space punct : N -> bool) : nat -> wstr -> list (nat * wstr) -> Prop :=
| bs_end pos : bert_split space punct pos [] []
| bs_space pos c s l : space c = true -> bert_split space punct (pos + units [c]) s l -> bert_split space punct pos (c :: s) l
| bs_punct pos c s l : space c = false -> punct c = true -> bert_split space punct (pos + units [c]) s l -> bert_split space punct pos (c :: s) ((pos, [c]) :: l)
| bs_word pos x s l : x <> [] -> Forall (fun c => space c = false /\ punct c = false) x ->
    match s with [] => True | c :: _ => space c = true \/ punct c = true end ->
    bert_split space punct (pos + units x) s l -> bert_split space punct pos (x ++ s) ((pos, x) :: l).

(** The unknown token for a word of [n] units: the vocabulary id of the unknown token (0 if it has none), covering the word. *)
Definition unknown_token (w : wordpiece) (n : nat) : token := mkTok (match sfind (wp_unk w) (wp_vocab w) with Some i => i | None => 0%Z end) (wp_unk w) (0, n).

(** The tokens of one word: its greedy longest-match-first segmentation, or the unknown token if it is too long or has none. *)
Definition word_tokens (w : wordpiece) (x : wstr) (ts : list token) : Prop :=
  ((Z.of_nat (units x) <= wp_max w)%Z /\ greedy (wp_vocab w) (wp_prefix w) (flat_map utf16_enc x) 0 ts) \/
  (((wp_max w < Z.of_nat (units x))%Z \/ (forall ts', ~ greedy (wp_vocab w) (wp_prefix w) (flat_map utf16_enc x) 0 ts')) /\ ts = [unknown_token w (units x)]).

(** The rows of the tokens of word number [i], which starts at [pos]: type 0, special mask 0, attention 1. *)
Definition word_rows (i pos : nat) (ts : list token) : list row :=
  map (fun k => mkRow (tk_id k) 0 (tk_value k) (Some i) (pos + fst (tk_off k), pos + snd (tk_off k)) 0 1) ts.

(** The rows of the words from word number [i] on. *)
Inductive words_rows (w : wordpiece) : nat -> list (nat * wstr) -> list row -> Prop :=
| wr_nil i : words_rows w i [] []
| wr_cons i pos x l ts rs : word_tokens w x ts -> words_rows w (S i) l rs -> words_rows w i ((pos, x) :: l) (word_rows i pos ts ++ rs).

(** The rows of a text. *)
Definition reference (w : wordpiece) (space punct : N -> bool) (text : wstr) (rs : list row) : Prop :=
  exists l, bert_split space punct 0 text l /\ words_rows w 0 l rs.

(** Rows that agree except perhaps for their offsets. *)
Definition same_but_offset (a b : row) : Prop :=
  r_id a = r_id b /\ r_type a = r_type b /\ r_token a = r_token b /\ r_word a = r_word b /\ r_smask a = r_smask b /\ r_amask a = r_amask b.

(** ** When the reference applies *)
From Verif Require Import Normalizer AddedVocab Tokenizer AvSpec OffSpec.
(** [n] is the text that reaches the pre-tokenizer: no added token occurs in [s] or in [n], and the normalizer (used only if there is an added vocabulary) turns [s] into the
    non-empty text [n]. *)
Definition normalized_to (E : env) (t : tokenizer) (s n : wstr) : Prop :=
  match tz_av t with
  | None => n = s
  | Some av => n <> [] /\ (exists sub, run_norm E (tz_norm t) s = Ok sub /\ ns_text sub = n) /\
               no_added_token (av_trie_raw av) (flat_map utf16_enc s) /\ no_added_token (av_trie_norm av) (flat_map utf16_enc n)
  end.
(** ... and it changes characters in place: the alignment table stays that of the original text. *)
Definition normalized_in_place (E : env) (t : tokenizer) (s n : wstr) : Prop :=
  normalized_to E t s n /\ units n <= units s /\ forall av sub, tz_av t = Some av -> run_norm E (tz_norm t) s = Ok sub -> sub = set_text (new_nstring s) n.
(** The tokenizer without truncation, padding and post-processing. *)
Definition bare (t : tokenizer) : tokenizer := mkTz None None (tz_av t) (tz_norm t) (tz_pre t) (tz_model t) (tz_dec t) None.

(** ** Comparing results *)
(** The encoding with all offsets erased, also in its overflowing parts. *)
Fixpoint forget_offsets (e : encoding) : encoding :=
  mkEnc (en_ids e) (en_type_ids e) (en_tokens e) (en_words e) (map (fun _ => (0, 0)) (en_offsets e)) (en_smask e) (en_amask e) (map forget_offsets (en_overflowing e)).
(** Spans in increasing order between [a] and [b], not empty, not overlapping. *)
Fixpoint rising (a b : nat) (l : list (nat * nat)) : Prop := match l with [] => a <= b | (x, y) :: r => a <= x /\ x < y /\ rising y b r end.
(** Two texts with the same words, separated by different amounts and kinds of white space. *)
Inductive respaced (space : N -> bool) : wstr -> wstr -> Prop :=
| rs_end g g' : Forall (fun c => space c = true) g -> Forall (fun c => space c = true) g' -> respaced space g g'
| rs_char c s s' : space c = false -> respaced space s s' -> respaced space (c :: s) (c :: s')
| rs_gap g g' s s' : g <> [] -> g' <> [] -> Forall (fun c => space c = true) g -> Forall (fun c => space c = true) g' -> respaced space s s' -> respaced space (g ++ s) (g' ++ s').
Definition same_words (space : N -> bool) (s s' : wstr) : Prop :=
  exists g g' r r', s = g ++ r /\ s' = g' ++ r' /\ Forall (fun c => space c = true) g /\ Forall (fun c => space c = true) g' /\ respaced space r r'.
