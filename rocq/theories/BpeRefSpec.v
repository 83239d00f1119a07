(** The reference tokenization of BPE tokenizers over a whole text: words, then the merges of every word. *)
From Verif Require Import Base Unicode Common PreTokenizer WordPiece Bpe Spec TzSpec WpSpec RefSpec BpeSpec UnkSpec.
From Coq Require QArith_base.

(** The words of the text [n] with their positions: those of BERT, or the whole text when there is no pre-tokenizer. *)
Definition text_words (pre : option pre_tokenizer) (space punct : N -> bool) (n : wstr) (l : list (nat * wstr)) : Prop :=
  match pre with
  | Some TBert => bert_split space punct 0 n l
  | None => l = [(0, n)]
  | _ => False
  end.

(** The word is a vocabulary token as a whole, and the model is told to use it without looking at the merges (a model with dropout is not). *)
Definition whole_word (b : bpe) (x : wstr) (i : Z) : Prop :=
  b_ignore_merges b = true /\ QArith_base.Qeq (b_dropout b) (QArith_base.Qmake 0 1) /\ sfind (utf8_encs x) (b_vocab b) = Some i.

(** Something of the word is represented in the vocabulary. *)
Definition encodable (b : bpe) (x : wstr) : Prop := (exists i, whole_word b x i) \/ 0 < covered b (utf8_encs x).

(** [bpe_tokens b x ts]: the tokens of a word. Either the word is one token (whose span is then empty), or: take the symbols the bytes of the word start with, merge
    adjacent pairs listed in the table; without dropout until no listed pair is left, and then the merge with the highest rank is always taken first if every pair has a
    result of its own. The tokens cover the symbols one after the other from position 0, and each is an entry of the vocabulary. *)
Inductive bpe_tokens (b : bpe) (x : wstr) : list token -> Prop :=
| bt_whole i : whole_word b x i -> bpe_tokens b x [mkTok i (utf8_encs x) (0, 0)]
| bt_merged start ts : (forall i, ~ whole_word b x i) -> word_symbols b (pieces (b_prefix b) (b_suffix b) (utf8_encs x)) start -> start <> [] ->
    steps (step (b_merges b)) start (token_seq ts) ->
    (QArith_base.Qeq (b_dropout b) (QArith_base.Qmake 0 1) -> (forall rank, ~ applicable (b_merges b) rank (token_seq ts)) /\
       (distinct_results (b_merges b) -> steps (step_highest (b_merges b)) start (token_seq ts))) ->
    tiles 0 (total_len start) (map tk_off ts) -> Forall (fun k => In (tk_value k, tk_id k) (b_vocab b)) ts -> bpe_tokens b x ts.

(** [rows_of_words P i l rs]: the rows [rs] of the words [l], numbered from [i], when the tokens of a word are those that [P] says. *)
Inductive rows_of_words (P : wstr -> list token -> Prop) : nat -> list (nat * wstr) -> list row -> Prop :=
| rw_nil i : rows_of_words P i [] []
| rw_cons i pos x l ts rs : P x ts -> rows_of_words P (S i) l rs -> rows_of_words P i ((pos, x) :: l) (word_rows i pos ts ++ rs).

(** The rows of word number [i]. *)
Definition rows_of_word (i : nat) (rs : list row) : list row := filter (fun r => match r_word r with Some k => k =? i | None => false end) rs.
