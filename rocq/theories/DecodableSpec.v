(** Vocabulary for C108: ids that decode knows. *)
From Verif Require Import Base Unicode Common WordPiece AddedVocab Tokenizer AvSpec HistSpec.

(** The id stands for some text: an added token or an entry of the model's vocabulary. *)
Definition known (v : smap Z) (av : added_vocab) (i : Z) : Prop := exists text, denotes v av i text.

(** What a position of the encoded text shows for a model: the text and id of one entry of its vocabulary; for WordPiece also its unknown token with id 0,
    if that token is missing from the vocabulary. *)
Definition model_entry (m : model) (token : bytes) (i : Z) : Prop :=
  In (token, i) (model_vocab m) \/ (exists w, m = MWordPiece w /\ token = wp_unk w /\ i = 0%Z /\ sfind (wp_unk w) (wp_vocab w) = None).
