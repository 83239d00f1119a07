(** The words of a text in which added tokens may occur, for any normalizer and pre-tokenizer; written without the model's matching and splitting code. *)
From Verif Require Import Base Unicode Common Normalizer PreTokenizer WordPiece AddedVocab NormSpec PreSpec CutSpec AvSpec MixSpec PartsSpec.

(** The normalizer makes [n] of [x]. *)
Definition normalized_to (E : env) (norm : option normalizer) (x n : wstr) : Prop := exists sub, run_norm E norm x = Ok sub /\ ns_text sub = n.

(** The words of the stretch [x] of the text [s], between two tokens with normalized = false: the stretch is normalized, the tokens with normalized = true are found in the result, and the stretches
    between these are cut by the pre-tokenizer. Only if the stretch is the whole text and nothing is left of it, the text itself is cut. *)
Definition stretch_words (E : env) (v : smap Z) (ops : list added_token) (norm : option normalizer) (pre : option pre_tokenizer) (s x : wstr) (l : list (nat * wstr)) : Prop :=
  exists n, normalized_to E norm x n /\
    ((n = [] /\ x = s /\ words_at E pre 0 s l) \/ (~ (n = [] /\ x = s) /\ parts (takes_part v ops true) (words_at E pre) 0 n l)).

(** The words [ws] of the text [s]. *)
Definition all_words (E : env) (v : smap Z) (ops : list added_token) (norm : option normalizer) (pre : option pre_tokenizer) (s : wstr) (ws : list wstr) : Prop :=
  exists l, parts (takes_part v ops false) (fun _ x l => stretch_words E v ops norm pre s x l) 0 s l /\ ws = map snd l.

(** Tokens of printable ASCII characters with no strip and whole-word flags. *)
Definition printable_token (t : added_token) : Prop := plain_token t /\ at_content t <> [] /\ Forall printable (at_content t).
