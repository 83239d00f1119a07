(** Vocabulary for C136: every outcome of encode for a tokenizer with a BERT normalizer. [bert_made], [bert_breaks] and [table_padded] are in WholeSpec.v, [place] in UncasedSpec.v, [words_of] in CutSpec.v. *)
From Verif Require Import Base Unicode Common Normalizer PreTokenizer NormSpec CutSpec AccentSpec FormSpec UncasedSpec EraseSpec WholeSpec.
Import ListNotations.

(** The text that is cut into words: what the normalizer made of the text, or the text itself if nothing is left of it. *)
Definition text_cut (s n : wstr) : wstr := match n with [] => s | _ :: _ => n end.
(** The words, each with the unit reported for its start (none if its position is outside the table). *)
Definition bert_words (E : env) (cl ch st lo : bool) (pre : option pre_tokenizer) (s : wstr) (l : list (option nat * wstr)) : Prop :=
  exists n e bytes ws, bert_made E cl ch st lo s n e bytes /\ forallb valid_cp n = true /\ words_of E pre (text_cut s n) ws /\ l = map (fun p => (UncasedSpec.place e bytes (fst p), snd p)) ws.
(** The library does not decompose the text. *)
Definition bert_unavailable (E : env) (cl ch st lo : bool) (s : wstr) : Prop :=
  exists z b, table_padded E cl ch s z b /\ st || lo = true /\ e_norm E NFD (text_padded E cl ch s) = None.
(** The result has a surrogate or a number above U+10FFFF. *)
Definition bert_invalid (E : env) (cl ch st lo : bool) (s : wstr) : Prop :=
  exists n e bytes, bert_made E cl ch st lo s n e bytes /\ forallb valid_cp n = false.
